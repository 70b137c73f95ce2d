{"id": "C01", "title": "Decimal integer printing is canonical", "statement": "Printing an integer in decimal notation with default format into a stream with room for it appends exactly the canonical decimal numeral of its mathematical value: an optional '-' followed by digits with no superfluous leading zero.", "quantifier": "all signed and unsigned 8, 16, 32 and 64 bit values", "why_tests_cant": "2^64 values per type; tests sample a few magnitudes and miss digit-grouping boundaries such as 9999/10000", "anchors": ["Source/Core/BareMetal/L3Streams/IOBufferIntegerPrint.cpp: Number2StreamDecimalNotationPrivate, IntegerToStreamDecimalNotation, GetOrderOfMagnitude"]}
{"id": "C02", "title": "Integer text round trip", "statement": "Parsing, into the same integer type, the text produced by printing an integer (decimal, or hexadecimal/octal/binary with the 0x/0o/0b header) succeeds and yields the original value.", "quantifier": "all values of all eight integer types and all four notations", "why_tests_cant": "the cross product of values, widths and notations cannot be enumerated", "anchors": ["Source/Core/BareMetal/L3Streams/IOBufferIntegerPrint.cpp: IntegerToStreamDecimalNotation, IntegerToStreamExadecimalNotation, IntegerToStreamOctalNotation, IntegerToStreamBinaryNotation", "Source/Core/BareMetal/L4Configuration/StringToInteger.cpp: StringToIntegerGeneric"]}
{"id": "C03", "title": "Integer parsing is exact and never wraps", "statement": "If converting a string to an integer succeeds then the string is an (optionally signed) numeral of the accepted grammar and the result equals its mathematical value (hexadecimal, octal and binary literals denote a bit pattern of the destination width); every literal of the grammar whose value fits the destination type is accepted and every other string is rejected. Grammar: \"0\"; an optional sign and decimal digits not starting with an unsigned 0; 0x/0o/0b and at most as many digits as the width needs; the digit sequence may be empty and then counts as zero.", "quantifier": "all NUL-terminated strings shorter than the 1000 character scan limit, all integer destination types", "why_tests_cant": "infinitely many strings; off-by-one errors live exactly at the type limits of each width and base", "anchors": ["Source/Core/BareMetal/L4Configuration/StringToInteger.cpp: StringToIntegerDecimal, StringToIntegerExadecimal, StringToIntegerOctal, StringToIntegerBinary, StringToIntegerPrivate"]}
{"id": "C04", "title": "Base64 encoding round trip", "statement": "Decoding the Base64 encoding of a byte sequence gives back exactly that byte sequence, and the encoding is the RFC 4648 one (alphabet, padding, length).", "quantifier": "all byte sequences", "why_tests_cant": "unbounded inputs; padding cases depend on the length modulo 3 and on the last bytes", "anchors": ["Source/Core/BareMetal/L3Streams/Base64Encoder.cpp: Base64Encoder::Encode, Base64Encoder::Decode"]}
{"id": "C05", "title": "Integer narrowing saturates", "statement": "Converting an integer into a type of another width or signedness with the saturating conversion yields the source value if it is representable and otherwise the nearest bound of the destination type.", "quantifier": "all pairs of source and destination widths and signednesses, all source values", "why_tests_cant": "all pairs of types times all values is not enumerable; mistakes are at the boundaries of mixed signed/unsigned comparisons", "anchors": ["Source/Core/BareMetal/L0Types/TypeCharacteristics.h: SaturateInteger", "Source/Core/BareMetal/L0Types/FractionalInteger.h: FractionalInteger::operator="]}
{"id": "C06", "title": "Bit-field writes are confined", "statement": "Assigning a value to a bit field stored inside a larger word saturates the value to the field's range, stores it in the field and leaves every other bit of the word unchanged; reading the field gives the stored value back.", "quantifier": "all word contents, all field offsets and sizes within the word, signed and unsigned fields, all assigned values", "why_tests_cant": "fields, offsets and neighbouring bits multiply; a shift or mask error shows only on particular neighbours", "anchors": ["Source/Core/BareMetal/L0Types/BitRange.h: BitRange::operator=, BitRange::operator T", "Source/Core/BareMetal/L0Types/BitBoolean.h"]}
{"id": "C07", "title": "Overflow-checking arithmetic is exact", "statement": "The safe arithmetic helpers return success with the exact mathematical result when it is representable in the destination type and signal failure otherwise; they never return a wrapped value as success.", "quantifier": "all operand values of all integer types", "why_tests_cant": "2^128 operand pairs for 64 bit types", "anchors": ["Source/Core/BareMetal/L1Portability/SafeMath.h"]}
{"id": "C08", "title": "Double-width integers implement wide arithmetic", "statement": "A double-width unsigned integer behaves as one integer of twice the width of its halves: addition, subtraction, negation, comparisons, shifts and bitwise operations agree with modular arithmetic at that width.", "quantifier": "all pairs of operands, all shift amounts, any half width", "why_tests_cant": "2^256 operand pairs; carry and borrow propagation cases are rare", "anchors": ["Source/Core/BareMetal/L0Types/DoubleInteger.h: DoubleInteger::operator+=, operator-=, operator<<=, operator>>=, operator<, operator=="]}
{"id": "C09", "title": "Linked lists behave as sequences", "statement": "Every sequence of list operations (insert at head, at the end, at an index, extract, search, peek, delete, size) on a list holder gives the results and contents of the same operations on an abstract sequence; no element is lost or duplicated.", "quantifier": "all finite sequences of operations and all element identities", "why_tests_cant": "operation histories are unbounded; pointer surgery errors depend on position (head, middle, tail) and on history", "anchors": ["Source/Core/BareMetal/L0Types/LinkedListable.cpp: LinkedListable::Insert, Add, AddL, Extract, Search, Peek, Size", "Source/Core/BareMetal/L0Types/LinkedListHolder.cpp: ListInsert, ListAdd, ListAddL, ListExtract, ListPeek, ListSize"]}
{"id": "C10", "title": "List sort sorts and preserves the elements", "statement": "Sorting a linked list with a sorter leaves a permutation of the original elements that is ordered according to the sorter, and terminates.", "quantifier": "all lists of any length and all total preorders given by the sorter", "why_tests_cant": "all lengths, all orders and all comparison functions", "anchors": ["Source/Core/BareMetal/L0Types/LinkedListable.cpp: LinkedListable::BSort", "Source/Core/BareMetal/L0Types/LinkedListHolder.cpp: LinkedListHolder::ListBSort"]}
{"id": "C11", "title": "Static list behaves as a growable array", "statement": "Every history of Add, Insert, Remove, Extract, Set and Peek on a static list gives the results of the same operations on an abstract sequence of values; capacity growth never alters the stored values and out-of-range positions are refused without effect.", "quantifier": "all histories, all element sizes and all positions", "why_tests_cant": "growth happens at capacity multiples; shifting loops are position dependent; histories are unbounded", "anchors": ["Source/Core/BareMetal/L1Portability/StaticListHolder.cpp: StaticListHolder::Add, Insert, Remove, Extract, Peek, Set, IncreaseCapacity"]}
{"id": "C12", "title": "BitSet operators are bitwise", "statement": "For bit sets the operators &, |, ^ and ~, the shifts, Set and Bit act on every bit index as the corresponding boolean operation on the represented sets of bit indices.", "quantifier": "all bit sets of any size, all indices and shift amounts", "why_tests_cant": "arbitrary sizes and word-crossing shifts", "anchors": ["Source/Core/BareMetal/L0Types/BitSet.cpp: BitSet::operator&, operator|, operator^, operator~, operator<<, operator>>, Set, Bit, operator=="]}
{"id": "C13", "title": "Table-driven CRC equals polynomial division", "statement": "The table-driven CRC of a buffer equals the bit-by-bit CRC (polynomial division) of the same buffer with the same polynomial, initial value and reflection mode; computing it in pieces by chaining the previous result gives the same value as computing it at once.", "quantifier": "all byte sequences, all polynomials, all initial values, CRC widths 8, 16 and 32", "why_tests_cant": "unbounded inputs and 2^32 polynomials", "anchors": ["Source/Core/BareMetal/L0Types/CRC.h: CRC::ComputeTable, CRC::Compute"]}
{"id": "C14", "title": "UnorderedMap is a finite map", "statement": "After any history of insertions and removals in an unordered map, looking up a key gives the value associated by the last successful insertion that was not followed by a removal, and keys never inserted are not found.", "quantifier": "all histories of operations and all keys (strings)", "why_tests_cant": "unbounded histories; depends on hash collisions and bucket distribution", "anchors": ["Source/Core/BareMetal/L1Portability/UnorderedMap.h: UnorderedMap::Insert, Lookup, Remove, Contains"]}
{"id": "C15", "title": "Timeout arithmetic saturates at infinity", "statement": "Arithmetic on timeouts never turns an infinite timeout into a finite one, never wraps below zero, and subtracting elapsed ticks from a finite timeout gives the remaining time or zero.", "quantifier": "all timeout values and all tick counts", "why_tests_cant": "64-bit operands", "anchors": ["Source/Core/BareMetal/L1Portability/TimeoutType.h: TimeoutType::operator-=, operator==, SetTimeoutMSec, GetTimeoutMSec"]}
{"id": "C16", "title": "StreamString is a seekable growing byte file", "statement": "Every history of Write, Read, Seek, RelativeSeek, SetSize, Size and Position on a string stream has the results of the same history on an abstract file (a byte sequence with a cursor); the exposed C string is always terminated and never loses written bytes when the buffer is reallocated.", "quantifier": "all histories and all data", "why_tests_cant": "unbounded histories; buffer growth occurs at granularity boundaries", "anchors": ["Source/Core/BareMetal/L3Streams/StreamString.cpp: StreamString::Read, Write, Seek, RelativeSeek, SetSize", "Source/Core/BareMetal/L3Streams/StreamStringIOBuffer.cpp: Write, NoMoreSpaceToWrite", "Source/Core/BareMetal/L3Streams/IOBuffer.cpp: Write, Read, Seek, RelativeSeek, SetUsedSize"]}
{"id": "C17", "title": "Tokenisation is faithful", "statement": "Repeatedly extracting tokens from a stream returns exactly the maximal runs of non-terminator characters in order, skipping only skippable characters between tokens; no character that is neither a terminator nor skippable is lost, and the reported terminator is the one that ended the token.", "quantifier": "all streams, all terminator and skip sets, all output buffer sizes", "why_tests_cant": "all strings and all separator sets", "anchors": ["Source/Core/BareMetal/L3Streams/IOBuffer.cpp: IOBuffer::GetTokenFromStream, IOBuffer::SkipTokensInStream"]}
{"id": "C18", "title": "Buffered streams are transparent", "statement": "Reading and writing through a single-buffer buffered stream has the same effect on the underlying device, after a flush, and returns the same bytes as the same operations performed directly on the device, for every buffer size.", "quantifier": "all histories of Read, Write, Seek, Flush; all buffer sizes; all device contents", "why_tests_cant": "operation interleavings times buffer sizes are unbounded; errors occur when the buffer boundary and direction switch coincide", "anchors": ["Source/Core/BareMetal/L3Streams/SingleBufferedStream.cpp: Read, Write, Seek, RelativeSeek, Position", "Source/Core/BareMetal/L3Streams/BufferedStreamIOBuffer.cpp: NoMoreSpaceToWrite, NoMoreDataToRead, Resync"]}
{"id": "C19", "title": "Polling mutex gives mutual exclusion", "statement": "Whatever the interleaving of threads, at most one thread is between a successful lock of a fast polling mutex and its unlock; a lock with a finite timeout that fails does not own the mutex.", "quantifier": "all numbers of threads, all schedules, all lock/unlock programs that unlock only what they locked", "why_tests_cant": "schedules are unbounded and races are not reproducible", "anchors": ["Source/Core/BareMetal/L1Portability/FastPollingMutexSem.cpp: FastPollingMutexSem::FastLock, FastTryLock, FastUnLock"]}
{"id": "C20", "title": "Resource pool never hands a resource to two owners", "statement": "Under every schedule of concurrent Take and Return operations a resource of a pool created free is owned by at most one client at a time and no resource is lost: whenever no operation is in progress the pool counts exactly the resources that are not owned, and a Take then succeeds exactly when one is left; a Take fails only when the pool is empty. As a consequence log pages are never shared between two writers and log entries come out in the order in which they were added.", "quantifier": "all pool sizes, all numbers of threads and all schedules", "why_tests_cant": "concurrent histories are unbounded", "anchors": ["Source/Core/BareMetal/L1Portability/FastResourceContainer.cpp: FastResourceContainer::Take, Return", "Source/Core/BareMetal/L4Logger/Logger.cpp: Logger::GetPage, AddLogEntry, GetLogEntry, ReturnPage"]}
{"id": "C21", "title": "Queued messages are delivered once, in order, without lost wake-ups", "statement": "Messages accepted by the queueing message filter are handed to its (single) consumer thread exactly once and in arrival order, and the consumer never sleeps forever while the queue is non-empty, whatever the interleaving of producers and consumer.", "quantifier": "all numbers of producers, all message sequences and all schedules", "why_tests_cant": "lost wake-ups appear only on specific interleavings", "anchors": ["Source/Core/Scheduler/L4Messages/QueueingMessageFilter.cpp: QueueingMessageFilter::ConsumeMessage, GetMessage"]}
{"id": "C22", "title": "Service threads follow the Startup/Main/Termination protocol", "statement": "Every embedded thread calls its callback with a Startup stage first, then any number of Main stages, and ends every cycle with exactly one Termination or BadTermination stage; a callback that reports an error is followed by BadTermination, one that reports completion by Termination, and nothing is called after a stop has completed.", "quantifier": "all callback behaviours (any sequence of return codes), all schedules of Stop commands", "why_tests_cant": "unbounded executions and arbitrary callbacks", "anchors": ["Source/Core/Scheduler/L3Services/EmbeddedThread.cpp: EmbeddedThread::ThreadLoop", "Source/Core/Scheduler/L3Services/EmbeddedThreadI.cpp: EmbeddedThreadI::Stop, Start, GetStatus"]}
{"id": "C23", "title": "Counting semaphore is a barrier", "statement": "With N actors no WaitForAll returns (other than by timeout or forced pass) before all N actors have called it, and once the last actor calls it every waiting actor is released.", "quantifier": "all N, all schedules", "why_tests_cant": "barrier races depend on schedule", "anchors": ["Source/Core/Scheduler/L1Portability/CountingSem.cpp: CountingSem::WaitForAll, Reset, ForceReset, ForcePass"]}
{"id": "C24", "title": "Asynchronous output broker delivers every accepted sample once, in order", "statement": "Every sample for which the asynchronous output broker's Execute reported success is later synchronised to the data source exactly once and in the order of production, samples are never torn, and the writer thread does not sleep while samples are pending, for every interleaving of the real-time thread and the writer thread.", "quantifier": "all numbers of buffers, all sequences of samples and all schedules", "why_tests_cant": "interleavings and wrap-around positions are unbounded", "anchors": ["Source/Core/Scheduler/L5GAMs/MemoryMapAsyncOutputBroker.cpp: Execute, BufferLoop, InitWithBufferParameters"]}
{"id": "C25", "title": "Asynchronous triggered broker stores exactly the pre/post window", "statement": "The triggered asynchronous broker synchronises exactly the samples that are within the configured number of pre-trigger samples before, at, or within the configured number of post-trigger samples after a triggered sample, each once and in order, as long as the writer thread keeps up.", "quantifier": "all trigger patterns, all pre/post settings, all buffer counts, all schedules that do not overrun", "why_tests_cant": "trigger patterns of any length and all window overlaps", "anchors": ["Source/Core/Scheduler/L5GAMs/MemoryMapAsyncTriggerOutputBroker.cpp: Execute, BufferLoop"]}
{"id": "C26", "title": "Multi-buffer brokers copy circularly", "statement": "Copying a signal of several samples from (to) a circular multi-buffer data source reads (writes) consecutive samples modulo the number of buffers and never accesses memory outside the signal's area.", "quantifier": "all buffer sizes, all offsets and all copy sizes", "why_tests_cant": "offset, size and wrap combinations are unbounded", "anchors": ["Source/Core/BareMetal/L5GAMs/MemoryMapMultiBufferBroker.cpp: CopyInputs, CopyOutputs"]}
{"id": "C27", "title": "Circular-buffer input source never skips fresh data silently", "statement": "A circular-buffer input data source hands to its consumer samples in production order; the flag that marks overwritten unread data is raised whenever the producer laps the consumer; offsets returned to brokers are always inside the signal's buffers.", "quantifier": "all numbers of buffers and samples and all interleavings of producer and consumer", "why_tests_cant": "wrap-around and interleaving", "anchors": ["Source/Core/Scheduler/L5GAMs/CircularBufferThreadInputDataSource.cpp: Synchronise, PrepareInputOffsets, GetInputOffset, Execute, TerminateInputCopy"]}
{"id": "C28", "title": "State machine transitions are the configured ones", "statement": "When an enabled event of the current state is received the state machine moves to the configured next state (or to the error state if its messages could not be delivered), after which exactly the events of the new state are enabled.", "quantifier": "all state machines and all event histories", "why_tests_cant": "histories are unbounded and the installed filters depend on the whole history", "anchors": ["Source/Core/Scheduler/L4StateMachine/StateMachine.cpp: StateMachine::EventTriggered", "Source/Core/Scheduler/L4StateMachine/StateMachineEvent.cpp: StateMachineEvent::ConsumeMessage"]}
{"id": "C29", "title": "References keep objects alive exactly while referenced", "statement": "An object managed by references is destroyed exactly once, when its last reference is destroyed, reassigned or removed; it is never destroyed while a reference to it exists, and the reported number of references is the number of live references.", "quantifier": "all histories of creation, copy, assignment and removal of references", "why_tests_cant": "unbounded aliasing histories", "anchors": ["Source/Core/BareMetal/L2Objects/Reference.cpp: Reference::operator=, RemoveReference, NumberOfReferences, Initialise", "Source/Core/BareMetal/L2Objects/Object.cpp: IncrementReferences, DecrementReferences"]}
{"id": "C30", "title": "Container path search", "statement": "Inserting an object at a path in a reference container makes it retrievable at exactly that path; Find on a path returns the first object whose chain of names is that path and never one with a different path; Delete removes exactly the object found; other paths are unaffected.", "quantifier": "all trees of named objects and all paths", "why_tests_cant": "all trees, depths and names", "anchors": ["Source/Core/BareMetal/L2Objects/ReferenceContainer.cpp: Insert, Find, Delete", "Source/Core/BareMetal/L2Objects/ReferenceContainerFilterObjectName.cpp: Test, TestPath"]}
{"id": "C31", "title": "Configuration database is a tree of named values", "statement": "After any history of Write, CreateAbsolute, CreateRelative, Move*, Delete on a configuration database, reading a path returns the value last written there and the navigation operations move the cursor as on an abstract tree; failed operations leave the cursor where it was.", "quantifier": "all histories and all path strings", "why_tests_cant": "unbounded histories", "anchors": ["Source/Core/BareMetal/L4Configuration/ConfigurationDatabase.cpp: Write, Read, CreateNodes, MoveAbsolute, MoveRelative, MoveToAncestor, Delete", "Source/Core/BareMetal/L4Configuration/ConfigurationDatabaseNode.cpp: Insert, Find, FindLeaf, Delete"]}
{"id": "C32", "title": "Message filter chain dispatch", "statement": "A received message is offered to the installed filters in order until the first one that consumes it; non-permanent filters are removed exactly when they consume; a message that no filter consumes is reported as unsupported.", "quantifier": "all filter lists and all messages", "why_tests_cant": "all filter chains and behaviours", "anchors": ["Source/Core/BareMetal/L4Messages/MessageFilterPool.cpp: MessageFilterPool::ReceiveMessage, MessageFilterInstall, MessageFilterRemove"]}
{"id": "C33", "title": "Waiting for a reply honours its timeout", "statement": "Waiting for a reply with a finite timeout returns success if the reply arrives before the timeout and a timeout error only after at least the timeout has elapsed.", "quantifier": "all reply arrival times and all timeouts", "why_tests_cant": "timing dependent", "anchors": ["Source/Core/BareMetal/L4Messages/MessageI.cpp: MessageI::WaitForReply"]}
{"id": "C34", "title": "Mathematical expressions compile to the right postfix program", "statement": "The math expression parser turns every well-formed infix expression into a stack program whose evaluation gives the value of the expression under the usual precedence and associativity.", "quantifier": "all expressions of any size and nesting", "why_tests_cant": "expression trees are unbounded; table-driven parsers fail on particular lookahead/production combinations", "anchors": ["Source/Core/BareMetal/L4Configuration/MathExpressionParser.cpp: MathExpressionParser tables and actions", "Source/Core/BareMetal/L4Configuration/ParserI.cpp: ParserI::Parse"]}
{"id": "C35", "title": "The runtime evaluator never over- or underflows its stack", "statement": "A stack-machine program accepted by the runtime evaluator's compilation executes without ever reading below the bottom of the stack or above the stack size computed at compilation, and computes the stack semantics of the program.", "quantifier": "all programs and all inputs", "why_tests_cant": "programs are unbounded", "anchors": ["Source/Core/BareMetal/L4Configuration/RuntimeEvaluator.cpp: Compile, Execute"]}
{"id": "C36", "title": "Lexical analysis splits the input faithfully", "statement": "The lexical analyser returns the tokens of its input in order: words delimited by separators, single-character terminals, quoted strings with escapes resolved; comments produce no token, and after the end of the input only end-of-file tokens are returned.", "quantifier": "all input texts", "why_tests_cant": "all texts", "anchors": ["Source/Core/BareMetal/L4Configuration/LexicalAnalyzer.cpp: LexicalAnalyzer::TokenizeInput, GetToken, PeekToken"]}
{"id": "C37", "title": "Event semaphore releases waiters", "statement": "A thread that starts waiting on an event after it was posted (and not reset) returns at once; a post releases every thread waiting at that moment; no wait returns success without a post.", "quantifier": "all schedules and numbers of threads", "why_tests_cant": "lost wake-ups are schedule dependent", "anchors": ["Source/Core/Scheduler/L1Portability/Environment/Linux/EventSem.cpp: EventSem::Wait, Post, Reset, ResetWait"]}
{"id": "C38", "title": "Thread pools respect their bounds", "statement": "A multi-client service never runs more threads than its configured maximum nor, once started, fewer than its minimum.", "quantifier": "all schedules of client arrivals and departures", "why_tests_cant": "schedule dependent", "anchors": ["Source/Core/Scheduler/L3Services/MultiClientService.cpp: AddThread, RemoveThread", "Source/Core/Scheduler/L3Services/MultiClientEmbeddedThread.cpp: ThreadLoop"]}
{"id": "C39", "title": "Integer square root is exact", "statement": "The integer square root of a non-negative integer is the largest integer whose square does not exceed it; for a negative argument it is the root of the absolute value.", "quantifier": "all values of all eight integer types", "why_tests_cant": "2^64 inputs; rounding errors appear only next to perfect squares", "anchors": ["Source/Core/BareMetal/L1Portability/FastMath.h: SquareRoot<uint8>, SquareRoot<uint16>, SquareRoot<uint32>, SquareRoot<uint64>, SquareRoot<int8>, SquareRoot<int64>"]}
{"id": "C40", "title": "Memory brokers copy exactly the configured bytes", "statement": "One execution of a memory-mapped broker makes every byte of every signal of the GAM, for all configured samples and byte ranges, equal to the configured byte of the data source (or the reverse), changes no other byte, and does so with or without the merging of contiguous copies; building the copy table never writes outside it.", "quantifier": "all sets of signals, samples, ranges and memory layouts, all state buffers", "why_tests_cant": "tables of any length and all adjacency patterns", "anchors": ["Source/Core/BareMetal/L5GAMs/BrokerI.cpp: BrokerI::InitFunctionPointers, InitFunctionPointersOptim, FillCopyTable, SortByGAMAddress", "Source/Core/BareMetal/L5GAMs/MemoryMapBroker.cpp: MemoryMapBroker::Init", "Source/Core/BareMetal/L5GAMs/MemoryMapInputBroker.cpp: Execute", "Source/Core/BareMetal/L5GAMs/MemoryMapOutputBroker.cpp: Execute"]}
{"id": "C41", "title": "Overlapping producers are refused", "statement": "A configuration in which functions write ranges of the elements of one signal is accepted exactly when no element is written by two of the ranges.", "quantifier": "all numbers of producers and ranges", "why_tests_cant": "all lists of ranges", "anchors": ["Source/Core/BareMetal/L5GAMs/RealTimeApplicationConfigurationBuilder.cpp: CheckProducersRanges"]}
{"id": "C42", "title": "MD5 digests and keyed codes are the standard ones", "statement": "For every message of fewer than 2^32 bytes, Md5Encrypt::Md5 terminates, stays inside its buffers and produces the RFC 1321 digest of the message, identically on 32 and 64 bit platforms; Md5Hmac produces the RFC 2104 code for every key and message.", "quantifier": "all byte messages below 2^32 bytes, all keys, all widths of unsigned long from 32 bits", "why_tests_cant": "Test vectors cover a few messages; block boundaries, carries of the length counter and the platform word size range over unbounded inputs.", "anchors": ["Source/Core/BareMetal/L1Portability/Md5Encrypt.cpp:Md5", "Source/Core/BareMetal/L1Portability/Md5Encrypt.cpp:Md5Hmac"]}
{"id": "C43", "title": "The real-time scheduler runs the state that was started, and only that", "statement": "If a client starts a state only after it stopped the current one and prepared the next, then since the last start every real-time thread has executed exactly cycles over the executables declared for it in that state (readers, function, writers of each function, in order, each cycle up to the last or the first failure), nothing is executed while the application is stopped, no thread touches a record that was freed or belongs to another state, and between calls CurrentState is the started state. If the client also stops before it prepares, every call returns and every thread keeps executing.", "quantifier": "for all sets of states, numbers and lengths of threads, outcomes of the executables, sequences of state changes and interleavings of the client and the threads", "why_tests_cant": "the property is about every interleaving of state changes with any number of running threads and unbounded histories; a test exercises a few schedules", "anchors": ["Source/Core/BareMetal/L5GAMs/GAMSchedulerI.cpp:ConfigureScheduler,PrepareNextState,ExecuteSingleCycle", "Source/Core/Scheduler/L5GAMs/GAMScheduler.cpp:StartNextStateExecution,StopCurrentStateExecution,CustomPrepareNextState,Execute", "Source/Core/BareMetal/L5GAMs/RealTimeApplication.cpp:PrepareNextState,StartNextStateExecution", "Source/Core/Scheduler/L3Services/MultiThreadService.cpp:Start,Stop"]}
{"id": "C44", "title": "Configuration parsers build the tree that the text describes", "statement": "Parse of a configuration in the standard, the XML or the JSON syntax, on a database with any history, returns true exactly when the configuration has a meaning (no repeated or empty block names, regular vectors and matrices of convertible elements, expressions whose variables exist) and then every later Read, Move or listing on the database returns what the described tree of blocks and values gives, with each expression replaced by its value and everything else that was in the database unchanged; otherwise it returns false. A sequence of tokens that is no configuration is refused (up to a character that the syntax does not use, which ends the input). It always returns.", "quantifier": "every configuration: every number, nesting and order of blocks, leaves, vectors, matrices, casts and expressions; every earlier and later history of the database; every conversion and evaluation function", "why_tests_cant": "A test parses a few files; the table-driven parser with its look-ahead and bounded stack, and the bookkeeping of the cursor and of rows and columns, must be right for every document.", "anchors": ["Source/Core/BareMetal/L4Configuration/ConfigurationParserI.cpp", "Source/Core/BareMetal/L4Configuration/StandardParser.cpp", "Source/Core/BareMetal/L4Configuration/XMLParser.cpp", "Source/Core/BareMetal/L4Configuration/JsonParser.cpp", "Source/Core/BareMetal/L4Configuration/ParserI.cpp", "ParserI::Parse", "ConfigurationParserI::AddLeaf", "ConfigurationParserI::End"]}
{"id": "C45", "title": "Signals of an accepted application have the memory their declarations ask for", "statement": "When RealTimeApplicationConfigurationBuilder accepts an application, every signal of every GAM has the type and number of elements that the GAM, the data source and the other GAMs using the signal declare. The pointers that GAM::GetInputSignalMemory/GetOutputSignalMemory return are the addresses at which the broker reads and writes; the memories of different signals do not overlap, lie inside the allocated block, and have the size of the wanted elements times the samples. The byte ranges lie inside the signal of the data source. In a MemoryDataSourceI or GAMDataSource the places of different signals and state buffers do not overlap and lie inside the allocated memory, and the broker copies exactly the declared elements.", "quantifier": "all data sources, GAMs, signals, aliases, types, numbers of elements, samples, ranges, orders of the GAMs, numbers of buffers and of state buffers", "why_tests_cant": "tests configure a few applications; the tests of refused applications in the repository also succeed when the application is accepted with the wrong databases", "anchors": ["Source/Core/BareMetal/L5GAMs/RealTimeApplicationConfigurationBuilder.cpp: ResolveDataSources, AddSignalToDataSource, VerifyDataSourcesSignals, ResolveFunctionSignalsMemorySize, ResolveFunctionsMemory", "Source/Core/BareMetal/L5GAMs/GAM.cpp: AllocateInputSignalsMemory, AllocateOutputSignalsMemory", "Source/Core/BareMetal/L5GAMs/MemoryDataSourceI.cpp: AllocateMemory, GetSignalMemoryBuffer", "Source/Core/BareMetal/L5GAMs/GAMDataSource.cpp: AllocateMemory"]}
{"id": "C46", "title": "Formatted printing", "statement": "Printf returns true and writes exactly its format, with each conversion replaced by the text of the next argument (integers in the base, width, padding and alignment asked for, strings cut and padded to their field, vectors and matrices element by element in the grammar asked for); at the first sequence that is no conversion it stops and returns false, having written what is before it.", "quantifier": "Every format made of literal characters and conversions with any flags, width, precision and letter, and every list of integers of 8, 16, 32 and 64 bits, booleans, pointers, strings, character arrays, streams, vectors and matrices of them.", "why_tests_cant": "The formats and the arguments are unbounded, and the field width, the flags, the length of the text and the quotes interact; tests try a few combinations.", "anchors": ["Source/Core/BareMetal/L3Streams/IOBuffer.cpp:PrintFormatted", "Source/Core/BareMetal/L3Streams/IOBuffer.cpp:PrintCCString", "Source/Core/BareMetal/L1Portability/FormatDescriptor.cpp:InitialiseFromString"]}
{"id": "C47", "title": "A printed configuration can be parsed back", "statement": "Printing a configuration database in MARTe's own syntax (Printf with %!) from any node returns true, leaves the database and its current node as they were, and writes a text that the standard parser accepts and turns, in an empty database, into the same tree: the same directories with the same names in the same order, and at every place the same scalar, vector or matrix with every element as its text. The same holds in JSON (%J!) for databases of scalars. Directories are not empty, names are words, and strings have no quotes and no backslashes.", "quantifier": "every database reached by any sequence of calls, every tree of directories up to the depth the parsers take, every value of integers, booleans or strings", "why_tests_cant": "A round trip over all trees and all values is out of reach of examples; the failures are in combinations (an empty directory, a quote, a vector in JSON)", "anchors": ["Source/Core/BareMetal/L3Streams/IOBuffer.cpp PrintStructuredDataInterface", "Source/Core/BareMetal/L3Streams/IOBufferStandardPrint.cpp", "Source/Core/BareMetal/L3Streams/IOBufferJsonPrint.cpp", "Source/Core/BareMetal/L4Configuration/StandardParser.cpp", "Source/Core/BareMetal/L4Configuration/JsonParser.cpp"]}
{"id": "C48", "title": "A loader replaces a configuration completely or goes back to the last valid one", "statement": "After a successful Configure, every sequence of calls of Reconfigure (with a database, a text, or a text and its hash), ReloadLastValidConfiguration and GetSeed behaves as a system with a current configuration: a request that is accepted makes the new configuration current and the ObjectRegistryDatabase holds exactly its objects, in order, followed by the objects to keep alive; a request that is refused leaves the current configuration as it was, and with ReloadLast the registry again holds all of its objects; a text that does not parse or whose hash is wrong changes nothing; the messages sent are those announced.", "quantifier": "All configurations, classes (which objects can be built and configured), settings, message outcomes and sequences of calls, for Loader and RealTimeLoader.", "why_tests_cant": "Which step fails (parsing, building the n-th object, configuring an application, a message) combines with every earlier request; tests try a few sequences.", "anchors": ["Source/Core/BareMetal/L6App/Loader.cpp: Configure, Reconfigure, ReconfigureImpl, ReloadLastValidConfiguration, PostInit", "Source/Core/BareMetal/L6App/RealTimeLoader.cpp: PostReconfigure, Start", "Source/Core/BareMetal/L6App/ConfigurationLoaderHashCRC.cpp: ComputeHash, GetSeed", "Source/Core/BareMetal/L2Objects/ReferenceContainer.cpp: Initialise, Purge"]}
{"id": "C49", "title": "A reply written to the HTTP stream is the reply the client decodes", "statement": "Whatever the sizes of the buffer and of the pieces, and however Write, Printf, Flush and SetBufferSize are mixed, the bytes written to a double-buffered socket stream reach the socket once and in order; in chunk mode what reaches the socket, followed by the final chunk, is a chunked body whose data are exactly the bytes written. When a call fails, what was sent is the beginning of such a body. What is read is what the peer sent, in order, and a successful Read returns as many bytes as it says.", "quantifier": "all buffer sizes, all histories of calls, all contents, all ways in which sends fail and received bytes are split", "why_tests_cant": "the boundaries of the chunks depend on the buffer size and on the split of the calls, and the arrival of bytes on the network: there are unboundedly many splits", "anchors": ["Source/Core/FileSystem/L4HttpService/HttpChunkedStream.cpp:HttpChunkedStream::Flush", "Source/Core/FileSystem/L4HttpService/HttpChunkedStream.cpp:HttpChunkedStream::FinalChunk", "Source/Core/BareMetal/L3Streams/DoubleBufferedStream.cpp:DoubleBufferedStream::Write", "Source/Core/BareMetal/L3Streams/DoubleBufferedStream.cpp:DoubleBufferedStream::Read", "Source/Core/BareMetal/L3Streams/BufferedStreamIOBuffer.cpp:BufferedStreamIOBuffer::NoMoreSpaceToWrite"]}
{"id": "C50", "title": "An HTTP request is seen by the pages as the client wrote it", "statement": "HttpDecode(HttpEncode(text)) is the text, for every C string. A request line and header written with any percent encoding of the parts of the path, of the names and values of the query and with any header options is read by HttpProtocol::ReadHeader so that the command, the path (its parts joined by dots), the InputCommands and the InputOptions are exactly what was written before encoding, in order, and what follows the header is left in the stream; a posted form gives exactly its names and values.", "quantifier": "all texts, all percent encodings of them, all numbers of parts, commands and options, all previous requests of the connection", "why_tests_cant": "The texts, their encodings and the splitting into tokens combine without bound; tests try a few addresses and queries.", "anchors": ["Source/Core/BareMetal/L4HttpService/HttpDefinition.cpp: HttpEncode, HttpDecode", "Source/Core/FileSystem/L4HttpService/HttpProtocol.cpp: ReadHeader, RetrieveHttpCommand, BuildUrl, StoreCommands, StoreInputOptions, HandlePostApplicationForm"]}
{"id": "C51", "title": "A configured application has one writer per element and one thread per function", "statement": "If a real-time application is configured successfully, then every function its threads list exists; in every state every function runs in one thread (unless CheckSameGamInMoreThreads is 0); every thread waits for at most one synchronising signal; no function writes a signal of the timing data source; and (unless CheckMultipleProducersWrites is 0) no element of a data source's signal has two writers in a state. An application that keeps these rules, and whose signals fit together, is configured, whether it is configured before or after its objects are made.", "quantifier": "All applications: any functions, containers of functions, signals, aliases, ranges, data sources, states, threads and flags.", "why_tests_cant": "The rules are about all pairs of writers in all states, reached through names, containers, aliases and ranges; a test has one application, and an accepted wrong one shows only as a race between two threads.", "anchors": ["Source/Core/BareMetal/L5GAMs/RealTimeApplicationConfigurationBuilder.cpp:ResolveStates", "Source/Core/BareMetal/L5GAMs/RealTimeApplicationConfigurationBuilder.cpp:ResolveConsumersAndProducers", "Source/Core/BareMetal/L5GAMs/RealTimeApplicationConfigurationBuilder.cpp:VerifyConsumersAndProducers", "Source/Core/BareMetal/L5GAMs/RealTimeApplicationConfigurationBuilder.cpp:AddStateToFunction", "Source/Core/BareMetal/L5GAMs/RealTimeThread.cpp:ConfigureArchitecture"]}
{"id": "C52", "title": "The fast scheduler runs each configured thread in its own pool thread on its CPUs", "statement": "With the FastScheduler, in every state of the application each configured real-time thread is executed by exactly one thread of the pool, no pool thread executes two of them, the unused pool threads execute nothing, the pool thread has the CPU mask configured for the real-time thread, and the pool is not larger than the states need.", "quantifier": "every list of states, every list of threads per state and every CPU mask", "why_tests_cant": "the assignment depends on the masks of all the earlier states and of all the earlier threads of the state; the errors need three or four states with particular combinations of masks", "anchors": ["Source/Core/Scheduler/L5GAMs/FastScheduler.cpp: FastScheduler::ComputeMaxNThreads", "Source/Core/Scheduler/L5GAMs/FastScheduler.cpp: FastScheduler::CreateThreadMap", "Source/Core/Scheduler/L5GAMs/FastScheduler.cpp: FastScheduler::SetupThreadMap", "Source/Core/Scheduler/L5GAMs/FastScheduler.cpp: FastScheduler::CustomPrepareNextState"]}
{"id": "C53", "title": "Changing the state of the fast scheduler is clean", "statement": "After PrepareNextState, StopCurrentStateExecution and StartNextStateExecution every thread of the application executes the executables configured for it in the new state, in order and up to the first that fails, and no other; no thread begins a cycle of the new state while another is still in a cycle of the old one (NoWait = 0); a state that was started runs: no thread waits for ever.", "quantifier": "every number of threads, every sequence of states, every number of executables, every outcome of each execution and every interleaving of the client with the threads", "why_tests_cant": "a test sees the interleavings that its machine produces; the windows (between the barrier and the reading of the index, before falling asleep) are a few instructions long", "anchors": ["Source/Core/Scheduler/L5GAMs/FastScheduler.cpp: StartNextStateExecution, StopCurrentStateExecution, CustomPrepareNextState, Execute", "Source/Core/Scheduler/L1Portability/CountingSem.cpp: WaitForAll, Reset", "Source/Core/BareMetal/L5GAMs/RealTimeApplication.cpp: StartNextStateExecution, StopCurrentStateExecution", "Source/Core/BareMetal/L5GAMs/GAMSchedulerI.cpp: ExecuteSingleCycle"]}
{"id": "C54", "title": "Conversion of bit ranges saturates and touches nothing else", "statement": "Converting a number stored in a range of bits (any position, any size, signed or not) to another range of bits stores the nearest number that the destination can hold; the pointers and shifts returned designate the bits that follow; every bit outside the destination keeps its value; a range that is too long is refused.", "quantifier": "all memory contents, positions and sizes of the two ranges, signed and unsigned", "why_tests_cant": "positions, sizes, signs and neighbouring bits multiply; a mask error shows only on particular neighbours and values", "anchors": ["Source/Core/BareMetal/L3Streams/BitSetToInteger.h: BitSetToBitSet, BSToBS, BitSetToInteger, IntegerToBitSet", "Source/Core/BareMetal/L4Configuration/TypeConversion.cpp: IntegerToType"]}
{"id": "C55", "title": "Conversion of values, vectors and matrices between types", "statement": "TypeConvert between two values, vectors or matrices of the same shape stores in every element of the destination the conversion of the source element in the same place (integers saturate to the nearest number of the destination type, integers and booleans become their text, texts are parsed, strings are copied), returns true exactly when all the elements could be converted, and changes no byte outside the elements of the destination, for static arrays and for rows of pointers on the heap; constant destinations and destinations of another shape are refused and left alone; integers written as texts and read back are the same.", "quantifier": "All memory contents, element types, shapes, sizes and layouts (static or heap) of source and destination; all element values", "why_tests_cant": "The conversion is a product of types, signs, widths, shapes and layouts; a wrong stride or a write past the end of an element shows only for particular combinations.", "anchors": ["Source/Core/BareMetal/L4Configuration/TypeConversion.cpp:TypeConvert", "Source/Core/BareMetal/L4Configuration/TypeConversion.cpp:ScalarBasicTypeConvert", "Source/Core/BareMetal/L4Configuration/TypeConversion.cpp:MatrixBasicTypeConvert"]}
{"id": "C56", "title": "Interpolated inputs lie on the line between the samples", "statement": "After Reset, the calls of Execute of MemoryMapInterpolatedInputBroker give the GAM first the current sample and then, at every period, the value on the straight line between the two samples of the data source around that time (truncated for integer types); as few samples as needed are read, values never leave the interval of the two samples, and when the data source fails or its time stands still Execute fails and the memory of the GAM is not touched.", "quantifier": "All numbers of calls, sample times, values, periods, signal types and sizes", "why_tests_cant": "The interpolated value depends on the whole history of samples and periods; a wrong segment, a wrapped difference or a shared slope shows only for particular sequences of values.", "anchors": ["Source/Core/BareMetal/L5GAMs/MemoryMapInterpolatedInputBroker.cpp:Execute", "Source/Core/BareMetal/L5GAMs/MemoryMapInterpolatedInputBroker.cpp:ChangeInterpolationSegments", "Source/Core/BareMetal/L5GAMs/MemoryMapInterpolatedInputBroker.h:Interpolate"]}
{"id": "C57", "title": "A signal shared by functions starts a state from its default unless the previous state produced it", "statement": "The memory of a GAMDataSource gives every declared signal its own bytes inside one block, all zero at first. When a state change is prepared, every signal that some function reads and that no function produces in the current state goes back to its Default (or to zero), and no other byte changes; so over any history of states and writes a function that starts in a new state reads what the producers last wrote, or the initial value if the previous state did not produce the signal.", "quantifier": "All lists of signals, sizes, sample counts, defaults, producers per state and function inputs; all histories of producer writes, preparations and changes of state.", "why_tests_cant": "Which signals must be reset depends on the producers in each state and on the order of all earlier states and writes; tests try a few signals and one or two changes.", "anchors": ["Source/Core/BareMetal/L5GAMs/GAMDataSource.cpp: AllocateMemory, GetSignalMemoryBuffer, PrepareNextState, Initialise", "Source/Core/BareMetal/L5GAMs/DataSourceI.cpp: GetSignalNumberOfProducers, GetSignalByteSize, GetSignalDefaultValue, GetFunctionSignalAlias"]}
{"id": "C58", "title": "Matrix operations are those of linear algebra", "statement": "Product, Sum, Copy, SubMatrix, Transpose, Determinant and Inverse return true exactly when the shapes of their operands fit (and, for Inverse, when the determinant is not zero), store the product, sum, copy, part, transpose, determinant or inverse of the operands, and change no element of any other matrix; when they return false they change nothing.", "quantifier": "All matrices of every size, stored in one block or by rows, all placements of operands and results in memory, all elements of any ring (any field for Determinant and Inverse).", "why_tests_cant": "The results are defined by sums and recursive expansions over all rows and columns; tests compare a few small literals, usually 2 or 3 rows.", "anchors": ["Source/Core/BareMetal/L0Types/Matrix.h: Product, Sum, Copy, SubMatrix, Transpose, Determinant, Inverse, operator[], operator()"]}
{"id": "C59", "title": "Web requests reach the object they name and only the files of the configured directories", "statement": "An HttpObjectBrowser gives every request to the object that the longest part of the URL names, with the rest of the URL; it answers 404 when there is none and 401 when its realm does not accept the credentials. An HttpDirectoryResource sends the file below BaseDir that the path command names, whole, with the type of its name, and 404 if there is none. Nothing outside the configured directories, and no object of a browser whose realm refuses the credentials, is ever sent.", "quantifier": "every tree of objects, browsers (nested, with any root and realm), directories and file system, every request and URL, every history of requests", "why_tests_cant": "the tests ask for a few existing files and objects; the claim is about every URL, path text, nesting of browsers and order of requests, and it is security relevant", "anchors": ["Source/Core/FileSystem/L4HttpService/HttpObjectBrowser.cpp", "HttpObjectBrowser::FindTarget", "HttpObjectBrowser::CheckSecurity", "Source/Core/FileSystem/L4HttpService/HttpDirectoryResource.cpp", "HttpDirectoryResource::ServeFile", "HttpDirectoryResource::CheckExtension", "Source/Core/FileSystem/L4HttpService/HttpProtocol.cpp", "HttpProtocol::WriteHeader"]}
{"id": "C60", "title": "Conversions between integers and floating point numbers give the nearest value", "statement": "Converting a finite floating point number to an integer variable stores the nearest integer (halves away from zero), or the bound of the type that it exceeds (also for infinities), for both formats and all eight integer types, and is monotone. Converting an integer to a floating point variable stores the nearest number of the format, which is the integer itself when it has no more digits than the mantissa, and then the conversion back finds it again. A float64 converted to float32 is the nearest finite float32, a float32 converted to float64 keeps its value.", "quantifier": "every finite or infinite number of each format, every integer of each type", "why_tests_cant": "2^64 inputs for each pair of types; halves, the largest value below a half, bounds that are not representable and double rounding are single points that samples miss", "anchors": ["Source/Core/BareMetal/L4Configuration/FloatToInteger.cpp:FloatToInteger", "Source/Core/BareMetal/L4Configuration/IntegerToFloat.cpp:IntegerToFloat", "Source/Core/BareMetal/L4Configuration/TypeConversion.cpp:FloatToFloat"]}
{"id": "C61", "title": "Floating point numbers read from text have the value that is written", "statement": "Converting a text to a 32 or 64 bit floating point number accepts every number of the usual syntax (sign, digits, point, digits, exponent) that is in range and not longer than 1000 characters; integers with or without exponent that fit in the mantissa are read exactly; a number with d decimals is read with an error of at most (2d + 2^(b-1)) units of 2^-prec when its integer part is below 2^b; an exponent multiplies the number before it by that power of ten with a relative error of at most 50 units of 2^-prec; texts in base 16, 8 and 2 give the nearest number; a minus sign only changes the sign; and what is accepted is such a number.", "quantifier": "all texts of up to 1000 characters, both formats", "why_tests_cant": "The texts are unbounded in number and the rounding of each step depends on all the digits; a test compares a handful of literals with a tolerance.", "anchors": ["Source/Core/BareMetal/L4Configuration/StringToFloat.cpp:StringToNormalFloatPrivate", "Source/Core/BareMetal/L4Configuration/StringToFloat.cpp:AddExponent", "Source/Core/BareMetal/L4Configuration/StringToFloat.cpp:StringToFloatGeneric"]}
{"id": "C62", "title": "A floating point number is printed in its width, in the requested notation and rounded to the requested digits", "statement": "Printing a float32 or a float64 (IOBuffer/StreamString Printf with %f, %e, %g and the other floating point formats) always succeeds. For every number, infinity or NaN, every one of the six notations, every width from 0 to 255 and every precision from 0 to 255 the text fits in the width and, with padding, fills it with spaces on the requested side. The text is NaN, +Inf, -Inf, ? (no room), 0, or the sign, the digits and the power of ten that the notation prescribes: none in fixed point; E and a signed number in exponent notation with one digit before the point; a multiple of three with one to three digits before the point in engineering notation; an SI letter in smart and compact notation. The number that is written is the value rounded to the last digit that is shown, within half a unit of that digit plus 250 parts in 2^24 (2^53) of the value. Without a width all the requested digits are shown, and a number is only printed as 0 in fixed point if it is below half of the last decimal. In the first four notations the text can be read back by the conversion from text.", "quantifier": "for all finite numbers, infinities and NaN of both formats, all notations, widths, precisions, paddings and alignments", "why_tests_cant": "there are 2^64 numbers, each with its own sequence of rounding errors, and hundreds of widths and precisions at which digits are clipped or a rounding carries into one more digit; tests take a few numbers", "anchors": ["Source/Core/BareMetal/L3Streams/IOBufferFloatPrint.cpp:FloatToStream", "Source/Core/BareMetal/L3Streams/IOBufferFloatPrint.cpp:FloatToFixedPrivate", "Source/Core/BareMetal/L3Streams/IOBufferFloatPrint.cpp:NumberOfDigitsNotation"]}
{"id": "C63", "title": "The registry of the threads loses, duplicates and invents no thread", "statement": "Over every history of thread starts, ends, kills and queries: NumberOfThreads is the number of registered threads, a lookup by identifier or name returns a registered thread that has it and fails exactly if there is none, the indexes below NumberOfThreads give every registered thread exactly once, a removal removes exactly the thread that it returns, and a start is refused only if there is no memory or the number of threads is one less than a multiple of 64 (the promise that it is never refused with memory is refuted).", "quantifier": "all histories of fewer than 2^28 calls with any identifiers and names, memory missing whenever no thread is registered", "why_tests_cant": "the free place that a history leaves depends on the whole history; the refused start needs 64 threads and the end of one particular thread", "anchors": ["Source/Core/Scheduler/L1Portability/Environment/Generic/ThreadsDatabase_Generic.cpp:NewEntry", "Source/Core/Scheduler/L1Portability/Environment/Generic/ThreadsDatabase_Generic.cpp:RemoveEntry", "Source/Core/Scheduler/L1Portability/Environment/Generic/ThreadsDatabase_Generic.cpp:GetThreadID", "Source/Core/Scheduler/L1Portability/Environment/Generic/ThreadsDatabase_Generic.cpp:AllocMore"]}
{"id": "C64", "title": "The functions on C texts find, compare, copy and cut what their documentation says", "statement": "For every text and every buffer large enough: Length counts the characters before the terminator; Compare and CompareN return 0, 1 or 2 exactly if the texts (or their first n characters) are equal, the first is smaller, or the second is smaller; CompareNoCaseSensN does the same for the texts in lower case; SearchChar, SearchChars, SearchIndex, SearchLastChar and SearchString return the first (last) place where the character or text is, and NULL exactly if it is nowhere; Concatenate with a result, TokenizeByChars, TokenizeByString and Substr write exactly the documented text and a terminator, return the documented place, access nothing out of the bounds and change nothing behind the terminator; Copy and Concatenate leave a terminated text in the destination.", "quantifier": "all texts of any length, all contents of the memory behind them, all destinations, sizes and indexes", "why_tests_cant": "The functions run on every name and path of a configuration; the texts, the bytes left in a buffer and the places of the matches are unbounded, and a test buffer that happens to be zeroed hides a missing terminator.", "anchors": ["Source/Core/BareMetal/L1Portability/Environment/Generic/StringHelper_Portable_Generic.cpp:StringHelper", "Source/Core/BareMetal/L1Portability/Environment/Generic/StringHelperExtras_Generic.cpp:StringHelper::TokenizeByChars", "Source/Core/BareMetal/L1Portability/Environment/Generic/StringHelperExtras_Generic.cpp:StringHelper::Substr"]}
{"id": "C65", "title": "Memory goes back to the heap that gave it", "statement": "After every history of calls to the HeapManager: AddHeap succeeds exactly if the heap is not NULL, is not registered and fewer than 16 are registered, and RemoveHeap exactly if the heap is registered; an address is found in the smallest registered heap whose range contains it, and otherwise in the standard heap; every byte of every block that the standard heap ever returned, by Malloc, Realloc or Duplicate, is found there, and Free, Realloc and Duplicate of it are done by the heap it is found in; Malloc with a name is done by the registered heap of that name, and by the standard heap if there is none; an address that no heap gave is refused by Free.", "quantifier": "all histories of AddHeap, RemoveHeap, Malloc, Free, Realloc and Duplicate, all ranges and names of the registered heaps, all addresses the C library returns", "why_tests_cant": "Whether a pointer goes back to the right heap depends on everything that was registered and allocated before and on the addresses the system returned; a test has one layout of the memory.", "anchors": ["Source/Core/BareMetal/L1Portability/HeapManager.cpp:HeapManager::FindHeap", "Source/Core/BareMetal/L1Portability/HeapManager.cpp:HeapManager::AddHeap", "Source/Core/BareMetal/L1Portability/Environment/Generic/StandardHeap_Generic.cpp:StandardHeap::Malloc", "Source/Core/BareMetal/L1Portability/HeapI.h:HeapI::Owns"]}
{"id": "C66", "title": "A binary tree is a map with positions", "statement": "Over every history of Insert, Remove, Search, operator[] (by identifier and by position), Reset and GetSize of a BinaryTree: Insert succeeds exactly if the identifier is not in the tree and gives its position, which is the number of entries with a smaller key; Search finds exactly the identifiers that were inserted and not removed; operator[] returns the value that was inserted with the identifier, and by position the entries in the order of the keys; Remove removes this entry only; no memory out of the lists is read, and the search ends.", "quantifier": "all histories, all identifiers, all hash functions, all answers of the heap", "why_tests_cant": "The search by halves has a different course for every size and place; whether every entry is still found depends on the whole history, and a collision or a refused allocation occurs in no ordinary test.", "anchors": ["Source/Core/BareMetal/L1Portability/BinaryTree.h:BinaryTree::Insert", "Source/Core/BareMetal/L1Portability/BinaryTree.h:BinaryTree::BinarySearch", "Source/Core/BareMetal/L0Types/DjbHashFunction.cpp:DjbHashFunction::Compute"]}
{"id": "C67", "title": "A structure described by the configuration is registered with exactly the declared members, without gap or overlap", "statement": "Initialising an IntrospectionStructure registers the type of that name with one member per node of the configuration, with its name, type, dimensions and size, the members following each other without gap or overlap from byte 0 to the class size; a refused configuration changes nothing, a type of the application is never replaced, other types do not change, and after a history that configures each name once every member has the size its type has in the registry. The modifiers of a member (const marks, pointers, up to three dimensions) are reported exactly as written.", "quantifier": "Every registry, every configuration of a type (any number of members, types and dimensions), every history of configurations, every modifiers text with any number of pointers.", "why_tests_cant": "Tests check a few structures of two or three members; overlap, nesting, redefinition and 32 bit sizes need all the declarations and all the histories.", "anchors": ["Source/Core/BareMetal/L4Configuration/IntrospectionStructure.cpp:Initialise", "Source/Core/BareMetal/L2Objects/IntrospectionEntry.cpp:IntrospectionEntry,IsConstant,GetMemberPointerLevel,GetNumberOfElements,GetNumberOfDimensions", "Source/Core/BareMetal/L2Objects/Introspection.cpp"]}
{"id": "C68", "title": "A tree of data is registered as types that have all its leaves and nodes as members", "statement": "RegisterStructuredDataI registers one type per node of the tree, named by the node or by its type identifier, whose members are exactly its leaves and its nodes (the elements name[0], name[1], ... of an array becoming one member of that many elements), laid out without gap or overlap, each member as large as its type; types of the application and types not in the tree never change.", "quantifier": "Every tree of any depth and width with any names, every type identifier, every registry before.", "why_tests_cant": "The tests register three trees; which children are taken depends on the order and the names of all the children at every level.", "anchors": ["Source/Core/BareMetal/L4Configuration/IntrospectionStructure.cpp:RegisterStructuredDataI,RegisterStructuredDataIPriv", "Source/Core/BareMetal/L4Configuration/IntrospectionStructure.h"]}
{"id": "C69", "title": "A stored value is a deep copy that owns its memory", "statement": "An object that stores a value keeps a copy of it, with its type, its dimensions and its contents, strings included. The copy does not change when the source is changed or freed. The memory of the copy is freed once, when another value is stored or the object is cleaned, and nothing is left over; storing a value in one object changes neither the blocks of the program nor the other objects.", "quantifier": "every history of values stored in any number of objects (scalars, vectors, static matrices, matrices of rows, tensors, strings of any length), of cleanings, and of allocations, writes and frees of the program in between; the source may be the value of another object", "why_tests_cant": "tests store a value, compare it and destroy the object; whether each block is freed exactly once and no other is touched depends on the whole history of the memory", "anchors": ["Source/Core/BareMetal/L4Configuration/AnyObject.cpp: AnyObject::Serialise, AnyObject::CleanUp, AnyObject::GetType"]}
{"id": "C70", "title": "A value is accepted if and only if each of its elements meets the attributes", "statement": "The check of a value against the attributes of a member (smallest and largest value, smallest and largest number of characters, list of permitted values) answers yes if and only if every element of the value meets all of them, for scalars, vectors and matrices.", "quantifier": "every value of every integer type, character and string, of any dimensions and contents, and every combination of attributes", "why_tests_cant": "the tests check a few values for each type; which elements of a vector or of a matrix are looked at depends on its dimensions", "anchors": ["Source/Core/BareMetal/L4Configuration/ValidateBasicType.cpp: ValidateBasicType, PrivateValidate", "Source/Core/BareMetal/L2Objects/AnyType.cpp: AnyType::operator[]"]}
{"id": "C71", "title": "Blocks of a growing memory area keep their offset and their contents", "statement": "For every sequence of calls on a memory area (requests for new bytes, requests with a copy of given bytes, writes through the pointer of a block, Free), each block reads, at the offset that its request returned, exactly what was last stored in it, however often the area has grown since; blocks never overlap, and the reported size is the sum of the blocks. A request that fails leaves the area as it was.", "quantifier": "every history of requests, copies, writes and Free, every size of block, every answer of the heap", "why_tests_cant": "Growth moves the memory; a test tries a few sizes with a heap that always grants, so it sees neither an arbitrary interleaving of growth and writes nor a refused growth or the wrap of the 32-bit size.", "anchors": ["Source/Core/BareMetal/L1Portability/MemoryArea.cpp: MemoryArea::Add, MemoryArea::GetPointer, MemoryArea::Free", "Source/Core/BareMetal/L1Portability/Environment/Generic/StandardHeap_Generic.cpp: StandardHeap::Realloc"]}
{"id": "C72", "title": "A circular list remembers exactly the last n values", "statement": "A circular list made for n elements gives back, at each push, the value that was pushed n pushes before, and its last value is the value pushed last, over every history of pushes and queries; its index is the number of pushes modulo n and its size stays n.", "quantifier": "every element size, every n, every history of pushes, of pushes that return the replaced value, and of queries", "why_tests_cant": "The index wraps at n, so an error in the wrap shows only for some n and some number of pushes; a test pushes a few values in one list.", "anchors": ["Source/Core/BareMetal/L1Portability/CircularStaticList.h: CircularStaticList::PushData, CircularStaticList::GetLast, CircularStaticList::GetIndex", "Source/Core/BareMetal/L1Portability/StaticListHolder.cpp: StaticListHolder::Set, StaticListHolder::Peek"]}
{"id": "C73", "title": "Classes are found by name and their identifiers stay valid", "statement": "Over every history of registrations and searches, each registered class keeps its position and has a unique identifier, which Peek resolves to it. Finding library::class or class gives the first class registered under that name without opening anything; if there is none, the first existing file of the library (.so, .gam, .drv) is opened, its classes are registered once, and the class is found if and only if it is then registered.", "quantifier": "every sequence of registrations and searches, every name, every set of libraries and of classes in them", "why_tests_cant": "The result depends on which classes and libraries were loaded before and in what order; a test loads a few known classes once.", "anchors": ["Source/Core/BareMetal/L2Objects/ClassRegistryDatabase.cpp: ClassRegistryDatabase::Add, ClassRegistryDatabase::Find, ClassRegistryDatabase::Peek", "Source/Core/BareMetal/L0Types/LinkedListHolder.cpp: LinkedListHolder::ListInsert"]}
{"id": "C74", "title": "The static stack returns values last in, first out", "statement": "For every history of pushes, pops, peeks and cleanings, a static stack gives back the values in the opposite order of the pushes, Peek(p) gives the value p below the top and fails for every p beyond the bottom, a pop of an empty stack fails, and a push that the heap refuses fails and changes nothing.", "quantifier": "every element size, every granularity, every history of calls, every answer of the heap", "why_tests_cant": "Positions are computed by subtraction in 32-bit unsigned arithmetic, so the results beyond the bottom and on an empty stack depend on the wrap; a test tries one type and a few depths.", "anchors": ["Source/Core/BareMetal/L1Portability/StaticStack.h: StaticStack::Push, StaticStack::Pop, StaticStack::Peek, StaticStack::GetAllocatedMemoryConst", "Source/Core/BareMetal/L1Portability/StaticListHolder.cpp: StaticListHolder::Add, StaticListHolder::Extract"]}
{"id": "C75", "title": "A polling event releases every waiter when it is open, and only then", "statement": "For every number of threads and every interleaving: a wait that returns NoError saw the event open after it was entered; a wait that returns Timeout had a finite timeout that passed, and its last test saw the event closed; once the event is posted and not reset, each waiting thread is released at its next test.", "quantifier": "every number of waiting threads, every interleaving of posts, resets, tests and passing time", "why_tests_cant": "The outcome depends on where posts and resets fall between the test of the flag and the test of the clock of each thread; a test cannot enumerate schedules.", "anchors": ["Source/Core/BareMetal/L1Portability/FastPollingEventSem.cpp: FastPollingEventSem::FastWait, FastPollingEventSem::FastPost, FastPollingEventSem::Reset, FastPollingEventSem::FastResetWait"]}
{"id": "C76", "title": "A stream over a block of memory is a cursor over that block and never leaves it", "statement": "For every block of memory, writable or read-only, and every sequence of calls of StreamMemoryReference (Read, Write, Seek, RelativeSeek, SetSize, Size, Position): a read returns the bytes at the cursor up to the size, a write stores at the cursor what fits in the block and reports how much, a seek beyond the size stops at the end and is refused, Position and Size agree with the calls made, no call touches memory outside the block, and a read-only block keeps its bytes.", "quantifier": "every block, every sequence of calls and every argument", "why_tests_cant": "The cursor is held twice, as a count and as a pointer, and which calls leave the two apart depends on the history; a test tries a few sequences.", "anchors": ["Source/Core/BareMetal/L3Streams/StreamMemoryReference.cpp: StreamMemoryReference::Read, StreamMemoryReference::Write, StreamMemoryReference::Seek, StreamMemoryReference::RelativeSeek, StreamMemoryReference::SetSize", "Source/Core/BareMetal/L3Streams/IOBuffer.cpp: IOBuffer::Read, IOBuffer::Write, IOBuffer::Seek, IOBuffer::RelativeSeek, IOBuffer::SetUsedSize"]}
{"id": "C77", "title": "A type description holds what it was built with, and names and types correspond", "statement": "For every kind, size, constness and class code, and whatever the memory held before: a TypeDescriptor has the documented layout and reads back what it was built with (a value too large for its field becomes the largest); == ignores constness and nothing else and != is its negation; every documented type name gives its type and every other text, or NULL, the invalid type; every type gives its name and a type without a name none; names and types convert to each other and back; IsNumericType holds exactly for integers and floating point numbers with a size.", "quantifier": "every 16 bit description, every argument of the constructors, every text and every previous content of the memory", "why_tests_cant": "The claims range over all pairs of 16 bit words and all texts; a test tries the entries of the table.", "anchors": ["Source/Core/BareMetal/L1Portability/TypeDescriptor.cpp: TypeDescriptor::TypeDescriptor, TypeDescriptor::operator==, TypeDescriptor::operator!=, TypeDescriptor::IsNumericType, TypeDescriptor::GetTypeDescriptorFromTypeName, TypeDescriptor::GetTypeNameFromTypeDescriptor", "Source/Core/BareMetal/L1Portability/TypeDescriptor.h: TypeDescriptor"]}
