{"id": "C01", "title": "PagedStack is a LIFO stack for every legal history", "statement": "For every page size >= 1, every pre-allocation count >= 1 and every history made of push (one or many values), push_emplace, pop, multi-value pop, top get/set, discard(n), peek, peek_depth, peek_reverse, size, empty and shrink_to_fit that never removes or reads more elements than the stack holds, each call returns exactly what a plain LIFO list would return and none of them has undefined behaviour.", "quantifier": "all page sizes, pre-allocation counts, element values and finite operation histories", "why_tests_cant": "page-boundary behaviour depends on the exact history; tests use one geometry (4,2) and a handful of histories", "anchors": ["src/include/falcon/engine/pagedstack.h: push", "src/include/falcon/engine/pagedstack.h: push_emplace", "src/include/falcon/engine/pagedstack.h: pop", "src/include/falcon/engine/pagedstack.h: internal_pop", "src/include/falcon/engine/pagedstack.h: internal_pop_one", "src/include/falcon/engine/pagedstack.h: advance", "src/include/falcon/engine/pagedstack.h: growBase", "src/include/falcon/engine/pagedstack.h: discard(size_t)", "src/include/falcon/engine/pagedstack.h: size", "src/include/falcon/engine/pagedstack.h: empty", "src/include/falcon/engine/pagedstack.h: top"]}
{"id": "C02", "title": "Multi-value push and pop order", "statement": "push(a1,...,an) leaves an on top; a following pop(b1,...,bn) stores an in b1 ... a1 in bn and restores the previous contents, wherever page boundaries fall.", "quantifier": "all stacks, all n >= 1, all values", "why_tests_cant": "boundary positions are unbounded in number", "anchors": ["src/include/falcon/engine/pagedstack.h: internal_push", "src/include/falcon/engine/pagedstack.h: internal_pop"]}
{"id": "C03", "title": "peek, peek_reverse and peek_depth read without modifying", "statement": "peek(b1..bn) stores the i-th element from the top in bi; peek_reverse(b1..bn) stores the n-th element from the top in b1 and the top in bn; peek_depth(d,b1..bn) stores in b1 the element at distance d from the top and the following ones towards the top in b2..bn; none of the three changes the stack.", "quantifier": "all stacks, all n <= size, all d with n <= d <= size", "why_tests_cant": "the reads may cross any number of pages", "anchors": ["src/include/falcon/engine/pagedstack.h: peek", "src/include/falcon/engine/pagedstack.h: peek_depth", "src/include/falcon/engine/pagedstack.h: peek_reverse", "src/include/falcon/engine/pagedstack.h: internal_from_top", "src/include/falcon/engine/distribute.h: distribute"]}
{"id": "C04", "title": "pop_reverse removes exactly the values it returns", "statement": "pop_reverse(b1..bn) stores the n topmost elements in FIFO order (bn receives the old top) and removes exactly those elements, so that all later operations behave as on a stack that never held them.", "quantifier": "all stacks, all n <= size, all later histories", "why_tests_cant": "the failure needs a pop that ends exactly on a page boundary followed by enough pushes to re-enter that page", "anchors": ["src/include/falcon/engine/pagedstack.h: pop_reverse", "src/include/falcon/engine/pagedstack.h: internal_discard", "src/include/falcon/engine/pagedstack.h: internal_from_top"]}
{"id": "C05", "title": "discard(iterator) drops the addressed element and all above it", "statement": "discard(it) removes the element addressed by a dereferenceable iterator and every element above it, keeps everything below, and later operations behave as on a stack that never held the removed elements. (The header comment instead says that the addressed element becomes the new top.)", "quantifier": "all stacks, all iterator positions, all later histories", "why_tests_cant": "the failure needs an iterator on a page boundary and later pushes", "anchors": ["src/include/falcon/engine/pagedstack.h: discard(iterator_base)", "src/include/falcon/engine/pagedstack.h: discard(reverse_iterator_base)", "src/include/falcon/engine/pagedstack.h: internal_discard"]}
{"id": "C06", "title": "clear() empties the stack", "statement": "After clear() the stack is empty: empty() is true and size() is 0, whatever it contained.", "quantifier": "all stacks", "why_tests_cant": "no test calls clear; the result depends on how many pages are in use", "anchors": ["src/include/falcon/engine/pagedstack.h: clear"]}
{"id": "C07", "title": "Forward iteration visits every element from top to bottom", "statement": "Starting from begin() and incrementing until end() visits every element of the stack exactly once, from the top to the bottom, and reaches end() after exactly size() increments.", "quantifier": "all stacks of any size and page geometry", "why_tests_cant": "number of pages is unbounded", "anchors": ["src/include/falcon/engine/pagedstack.h: iterator_base::operator++", "src/include/falcon/engine/pagedstack.h: begin", "src/include/falcon/engine/pagedstack.h: end"]}
{"id": "C08", "title": "Reverse iteration visits every element from bottom to top", "statement": "Starting from rbegin() and incrementing until rend() visits every element exactly once, from the bottom to the top, and reaches rend() after exactly size() increments.", "quantifier": "all stacks of any size and page geometry, with or without spare pages", "why_tests_cant": "the tests only iterate a stack whose top page is the last allocated page", "anchors": ["src/include/falcon/engine/pagedstack.h: reverse_iterator_base::operator++", "src/include/falcon/engine/pagedstack.h: rbegin", "src/include/falcon/engine/pagedstack.h: rend"]}
{"id": "C09", "title": "from_top(d) addresses the d topmost elements in FIFO order", "statement": "For d <= size(), iterating from from_top(d) to rend() visits exactly the d topmost elements, deepest first, and reaches rend() after exactly d increments.", "quantifier": "all stacks, all depths d <= size", "why_tests_cant": "depth may span any number of pages", "anchors": ["src/include/falcon/engine/pagedstack.h: from_top", "src/include/falcon/engine/pagedstack.h: internal_from_top", "src/include/falcon/engine/pagedstack.h: rend"]}
{"id": "C10", "title": "Iterator increment and decrement are inverse", "statement": "On every position strictly inside the iteration range, -- undoes ++ and ++ undoes --, for forward and reverse iterators, and += n / -= n are n single steps.", "quantifier": "all stacks, all positions, all n", "why_tests_cant": "page-boundary positions are unbounded in number", "anchors": ["src/include/falcon/engine/pagedstack.h: iterator_base", "src/include/falcon/engine/pagedstack.h: reverse_iterator_base"]}
{"id": "C11", "title": "Synchronised iterators never dangle", "statement": "In every interleaving of stack operations and of operations on synchronised iterators that are created by sync_begin/sync_end and not copied, an operation on a live synchronised iterator never touches a released page and never reads outside the used part of a page, and get() on a non-empty stack yields an element that is currently in the stack.", "quantifier": "all histories of stack operations interleaved with creation, use and destruction of any number of synchronised iterators", "why_tests_cant": "needs all interleavings of pops, discards, shrinks and iterator steps", "anchors": ["src/include/falcon/engine/pagedstack.h: sync_iterator_base", "src/include/falcon/engine/pagedstack.h: synchronize", "src/include/falcon/engine/pagedstack.h: removeSyncIterator", "src/include/falcon/engine/pagedstack.h: shrink_to_fit"]}
{"id": "C12", "title": "Synchronised iterators report an emptied stack by an exception only", "statement": "get() and the movement operators of a synchronised iterator throw exactly when the stack is empty at the time of the call, and a throwing call leaves the stack unchanged and unlocked.", "quantifier": "all stacks, all live synchronised iterators", "why_tests_cant": "depends on history of removals since the iterator was placed", "anchors": ["src/include/falcon/engine/pagedstack.h: synchronize", "src/include/falcon/engine/pagedstack.h: sync_iterator_base::get"]}
{"id": "C13", "title": "Deferred shrink", "statement": "shrink_to_fit never changes the contents; while synchronised iterators are alive it releases nothing, and the pending release is carried out exactly when the last of them is destroyed.", "quantifier": "all histories, any number of live iterators", "why_tests_cant": "ordering of iterator destruction and shrink requests is unbounded", "anchors": ["src/include/falcon/engine/pagedstack.h: shrink_to_fit", "src/include/falcon/engine/pagedstack.h: internal_shrink_to_fit", "src/include/falcon/engine/pagedstack.h: removeSyncIterator"]}
{"id": "C14", "title": "Copying a synchronised iterator is safe", "statement": "A copy of a synchronised iterator keeps the pages alive like the original: no sequence of copies, destructions and shrink requests releases a page a live synchronised iterator points to.", "quantifier": "all histories including iterator copies", "why_tests_cant": "the tests never copy a synchronised iterator", "anchors": ["src/include/falcon/engine/pagedstack.h: sync_iterator_base (implicit copy constructor)", "src/include/falcon/engine/pagedstack.h: m_syncIterCount"]}
{"id": "C15", "title": "Page capacity and reference stability", "statement": "No page ever holds more elements than the capacity reserved for it, so pushing never relocates existing elements and references to them stay valid, whatever other calls are made, until the element is popped.", "quantifier": "all histories of the list of C01, and for references also the calls that remove through iterators, in histories where no such removal ends on a page boundary before a push (see C04 and C05)", "why_tests_cant": "needs an invariant over every history", "anchors": ["src/include/falcon/engine/pagedstack.h: advance", "src/include/falcon/engine/pagedstack.h: growBase", "src/include/falcon/engine/pagedstack.h: internal_push"]}
{"id": "C16", "title": "Pages are allocated in batches and only when needed", "statement": "push allocates exactly the configured number of pages when, and only when, every allocated page is full; no other operation allocates; so re-pushing up to a size already reached since the last shrink never allocates.", "quantifier": "all histories of the list of C01", "why_tests_cant": "the test checks a single sequence of counts", "anchors": ["src/include/falcon/engine/pagedstack.h: growBase", "src/include/falcon/engine/pagedstack.h: advance"]}
{"id": "C17", "title": "A copied stack is independent of the original", "statement": "After copying a PagedStack, operations on the copy do not change the original and vice versa, and the copy has the contents of the original.", "quantifier": "all stacks (with the default lock type, for which the class is copyable) and all later histories", "why_tests_cant": "no test copies a stack", "anchors": ["src/include/falcon/engine/pagedstack.h: PagedStack (implicit copy constructor)", "src/include/falcon/engine/pagedstack.h: m_curBase"]}
{"id": "C18", "title": "Stack operations never deadlock on their own lock", "statement": "With a non-recursive mutex as lock parameter every public operation acquires the lock when it is free, never acquires it twice, and has released it when it returns or throws.", "quantifier": "all operations in all states", "why_tests_cant": "a self-deadlock on a rare path (throwing, iterator destruction, assertions) is not found by sampling", "anchors": ["src/include/falcon/engine/pagedstack.h: lock_guard", "src/include/falcon/engine/pagedstack.h: std::lock_guard uses in every operation"]}
{"id": "C19", "title": "getStats and size are consistent", "statement": "getStats reports the number of allocated pages, the page capacity, the 1-based index of the page in use and its fill, and size() equals (index-1)*capacity + fill.", "quantifier": "all histories of the list of C01", "why_tests_cant": "needs an invariant over every history", "anchors": ["src/include/falcon/engine/pagedstack.h: getStats", "src/include/falcon/engine/pagedstack.h: size"]}
{"id": "C20", "title": "Construction parameters", "statement": "Every PagedStack constructed with any page size and any pre-allocation count accepts a first push without undefined behaviour.", "quantifier": "all page sizes and pre-allocation counts, including 0", "why_tests_cant": "tests use (4,2) and the defaults only", "anchors": ["src/include/falcon/engine/pagedstack.h: PagedStack(size_t,size_t,allocator)", "src/include/falcon/engine/pagedstack.h: growBase"]}
{"id": "C21", "title": "Futex mutual exclusion", "statement": "At any time at most one thread is between the return of lock() and its call of unlock(), for any number of threads, any spin-count parameter and spurious failures of the weak compare-exchange.", "quantifier": "all thread counts, spin counts, schedules and spurious-failure patterns", "why_tests_cant": "schedules cannot be enumerated by tests", "anchors": ["src/include/falcon/futex.h: Futex::lock", "src/include/falcon/futex.h: Futex::unlock"]}
{"id": "C22", "title": "Futex-protected critical sections are atomic", "statement": "If every access to shared data happens in a multi-step critical section guarded by the futex, then in every reachable state the data equals the result of executing the completed sections one after the other in the order in which the lock was acquired (plus the partial section of the current holder); in particular no increment of a guarded counter is lost.", "quantifier": "all thread counts, all section bodies, all schedules", "why_tests_cant": "the tests run one counter on a few schedules", "anchors": ["src/include/falcon/futex.h: Futex::lock", "src/include/falcon/futex.h: Futex::unlock", "src/test/engine/futex.fut.cpp: performance_test"]}
{"id": "C23", "title": "Futex never blocks while it is free", "statement": "Whenever no thread holds the futex, the next non-spurious attempt of any waiting thread acquires it; isLocked() is true exactly while some thread holds it.", "quantifier": "all reachable states, all waiting threads", "why_tests_cant": "depends on the schedule", "anchors": ["src/include/falcon/futex.h: Futex::lock", "src/include/falcon/futex.h: Futex::isLocked"]}
{"id": "C24", "title": "Futex yields under contention as documented", "statement": "With spin-count 1 the waiting thread yields on every failed attempt; with spin-count n > 1 it yields once each n failed attempts; with 0 it never yields.", "quantifier": "all spin counts and numbers of failed attempts", "why_tests_cant": "yield counts are not observable in the tests and the deviation appears after the first yield", "anchors": ["src/include/falcon/futex.h: Futex::lock (spinCount, sc)"]}
{"id": "C25", "title": "RFutex::lock returns when the futex is free", "statement": "A thread that calls lock() on a free recursive futex, with no other thread interfering, acquires it and returns.", "quantifier": "all threads and schedules", "why_tests_cant": "no test exercises RFutex; non-termination is not testable", "anchors": ["src/include/falcon/futex.h: RFutex::lock"]}
{"id": "C26", "title": "RFutex is re-entrant and exclusive", "statement": "A thread that returned from lock() can lock again without blocking; the futex is released after as many unlock() calls, and until then no other thread returns from lock().", "quantifier": "all schedules", "why_tests_cant": "no test exercises RFutex", "anchors": ["src/include/falcon/futex.h: RFutex::lock", "src/include/falcon/futex.h: RFutex::unlock"]}
{"id": "C27", "title": "RFutex::isOwner identifies the holder", "statement": "isOwner() is true for a thread only if that thread has acquired the futex.", "quantifier": "all threads and states", "why_tests_cant": "no test exercises RFutex", "anchors": ["src/include/falcon/futex.h: RFutex::isOwner", "src/include/falcon/futex.h: RFutex::isLocked"]}
{"id": "C28", "title": "Messages are processed exactly once, in FIFO order, with their own contents", "statement": "In every interleaving of any number of logging threads with the log thread, the sequence of messages handed to listeners is a prefix of the sequence of accepted messages, each message carries exactly the file, line, level, category and text passed to log(), and none is lost, duplicated or altered by the re-use of pooled message objects.", "quantifier": "all numbers of client threads, all message sequences, all schedules", "why_tests_cant": "schedules and pool re-use histories are unbounded", "anchors": ["src/engine/logsystem.cpp: LogSystem::log", "src/engine/logsystem.cpp: loggingThread", "src/engine/logsystem.cpp: allocateMsg", "src/engine/logsystem.cpp: disposeMsg"]}
{"id": "C29", "title": "A listener receives exactly the messages its filter accepts", "statement": "A listener that is added once and whose settings are not changed receives, in order and once each, exactly those messages whose dispatch starts after it was added and that satisfy: enabled, message level <= listener level, and (message category empty, or listener category empty, or regex match). If its settings are changed, though not during a dispatch, each message is judged by the settings in force when its dispatch starts.", "quantifier": "all listener settings, message sequences, numbers of listeners and schedules", "why_tests_cant": "needs all interleavings of addListener with dispatch", "anchors": ["src/engine/logsystem.cpp: sendMessageToListeners", "src/engine/logsystem.cpp: processNewListeners", "src/engine/logsystem.cpp: addListener", "src/engine/logsystem.cpp: checkCategory"]}
{"id": "C30", "title": "System-wide level filter", "statement": "log(file, line, level, category, message) with a level above the system level has no effect at all; any other call, and every call of log(Message*), queues exactly one message.", "quantifier": "all levels, all states", "why_tests_cant": "the claim ranges over every value and every preceding history; tests only sample a few of them", "anchors": ["src/engine/logsystem.cpp: LogSystem::log"]}
{"id": "C31", "title": "Message objects are conserved and the pool is bounded", "statement": "The pool never holds more than 64 message objects; every message object is at any time in exactly one of: pool, queue, a logging thread, the log thread, destroyed; and whenever no message is queued or in flight the pool holds exactly 64 objects, and as many objects were discarded as were created beyond the pool or passed in through log(Message*).", "quantifier": "all schedules", "why_tests_cant": "the test looks at one quiescent point", "anchors": ["src/engine/logsystem.cpp: allocateMsg", "src/engine/logsystem.cpp: disposeMsg", "src/engine/logsystem.cpp: LogSystem::LogSystem", "src/include/falcon/logsystem.h: MESSAGE_POOL_THRESHOLD"]}
{"id": "C32", "title": "Diagnostics counters", "statement": "m_msgReceived equals the number of messages dispatched so far, m_maxMsgQueueSize equals the largest queue length ever reached, m_pendingListeners the number of listeners added and not yet activated; m_msgsCreated and m_msgsDiscarded count the message objects that log() created beyond the pool, and those deleted, including those a thread is just about to create or delete; m_activeListeners and m_enabledListeners count the registrations taken in and, of those, the ones of enabled listeners.", "quantifier": "all schedules", "why_tests_cant": "needs history-dependent maxima over all interleavings", "anchors": ["src/engine/logsystem.cpp: getDiags", "src/engine/logsystem.cpp: log(Message*)", "src/engine/logsystem.cpp: sendMessageToListeners"]}
{"id": "C33", "title": "No lost wake-up", "statement": "The log thread is never asleep without a pending notification while a message is queued or termination was requested (except while the requesting stop() has yet to issue its notification).", "quantifier": "all schedules", "why_tests_cant": "lost wake-ups are schedule dependent", "anchors": ["src/engine/logsystem.cpp: loggingThread", "src/engine/logsystem.cpp: log(Message*)", "src/engine/logsystem.cpp: stop"]}
{"id": "C34", "title": "A queued message is eventually dispatched", "statement": "From every reachable state with a running log thread and no termination request, finitely many steps of the log thread alone dispatch the first queued message to all its listeners and give the message object back; and under every scheduler that is fair to the log thread, whatever the other threads do, everything queued so far has been dispatched at some later time.", "quantifier": "all reachable states", "why_tests_cant": "liveness", "anchors": ["src/engine/logsystem.cpp: loggingThread"]}
{"id": "C35", "title": "After stop() returns no listener is called", "statement": "Once stop() has returned, no listener callback runs any more; and under every fair scheduler, when callbacks return, stop() and every other call of every thread returns.", "quantifier": "all schedules", "why_tests_cant": "schedule dependent", "anchors": ["src/engine/logsystem.cpp: stop", "src/engine/logsystem.cpp: loggingThread"]}
{"id": "C36", "title": "stop() delivers what was queued before", "statement": "Every message accepted before stop() was called is delivered before stop() returns.", "quantifier": "all schedules", "why_tests_cant": "schedule dependent: tests wait for delivery before stopping", "anchors": ["src/engine/logsystem.cpp: stop", "src/engine/logsystem.cpp: loggingThread"]}
{"id": "C37", "title": "The service can be restarted", "statement": "After stop() followed by start(), messages are dispatched again.", "quantifier": "all histories", "why_tests_cant": "no test restarts", "anchors": ["src/engine/logsystem.cpp: start", "src/engine/logsystem.cpp: stop"]}
{"id": "C38", "title": "A freshly constructed system is ready to log", "statement": "Immediately after construction with startNow=true the log thread serves messages, whatever the memory contained before.", "quantifier": "all initial memory contents", "why_tests_cant": "the flag read by the log thread is never initialised; tests see whatever the allocator left there", "anchors": ["src/include/falcon/logsystem.h: m_isTerminated", "src/engine/logsystem.cpp: LogSystem::LogSystem"]}
{"id": "C39", "title": "Detached listeners", "statement": "After detach() returns, a listener receives no further message.", "quantifier": "all schedules", "why_tests_cant": "race between detach and dispatch", "anchors": ["src/engine/logsystem.cpp: sendMessageToListeners", "src/engine/logsystem.cpp: cleanupTerminatedListeners", "src/include/falcon/logsystem.h: Listener::detach"]}
{"id": "C40", "title": "Category filter update is all-or-nothing", "statement": "Setting an invalid regular expression throws InvalidCategory and leaves the previous filter in force; a valid one replaces it; an empty one accepts every category.", "quantifier": "all regular expressions and category strings", "why_tests_cant": "the claim ranges over every value and every preceding history; tests only sample a few of them", "anchors": ["src/include/falcon/logsystem.h: Listener::category", "src/engine/logsystem.cpp: checkCategory"]}
{"id": "C41", "title": "Pooled messages do not leak", "statement": "The strings owned by a pooled message object are released when the object is re-used, so the number of live strings is bounded by the number of live message objects.", "quantifier": "all histories", "why_tests_cant": "leaks do not show in functional tests", "anchors": ["src/engine/logsystem.cpp: LogSystem::log (placement new)", "src/engine/logsystem.cpp: disposeMsg"]}
{"id": "C42", "title": "Listeners may log and register listeners from their callback", "statement": "A callback that calls log() or addListener() cannot deadlock the system; a callback must be able to call stop().", "quantifier": "all schedules", "why_tests_cant": "deadlocks are schedule dependent", "anchors": ["src/engine/logsystem.cpp: sendMessageToListeners", "src/engine/logsystem.cpp: stop", "src/engine/logsystem.cpp: log"]}
{"id": "C43", "title": "The diagnostics call is free of data races", "statement": "getDiags can be called at any time without a data race with the log thread.", "quantifier": "all schedules", "why_tests_cant": "data races are schedule dependent", "anchors": ["src/engine/logsystem.cpp: getDiags", "src/engine/logsystem.cpp: processNewListeners", "src/engine/logsystem.cpp: cleanupTerminatedListeners", "src/engine/logsystem.cpp: sendMessageToListeners"]}
{"id": "C44", "title": "Level names", "statement": "levelToString yields a four-character tag for every value, different for the six levels: CRIT, ERR, WARN, INFO, DBG, TRC in their order, and ???? for any other value.", "quantifier": "all level values", "why_tests_cant": "the claim ranges over every value and every preceding history; tests only sample a few of them", "anchors": ["src/engine/logsystem.cpp: levelToString"]}
{"id": "C45", "title": "One log statement, one message", "statement": "A statement LOG(l) << x1 << ... << xn whose operands do not log themselves produces exactly one message, with the statement's file, line and level and with the concatenation of the rendered operands as text, when l does not exceed the compile-time and the run-time level; otherwise it produces nothing, renders nothing and leaves no trace for the following statements.", "quantifier": "all operand lists, levels, preceding statements", "why_tests_cant": "sequences of statements are unbounded", "anchors": ["src/include/falcon/logger.h: Logger::AutoEnd", "src/include/falcon/logger.h: Logger::commit", "src/include/falcon/logger.h: operator<<", "src/include/falcon/logger.h: readyStream", "src/include/falcon/logger.h: LOG"]}
{"id": "C46", "title": "Threads do not mix their messages", "statement": "Messages composed concurrently by different threads contain only the composing thread's own text, category, file, line and level.", "quantifier": "all numbers of threads, all interleavings of composition steps", "why_tests_cant": "schedules", "anchors": ["src/engine/logger.cpp: thread_local members of Logger", "src/include/falcon/logger.h: commit"]}
{"id": "C47", "title": "Nested logging", "statement": "A log statement whose operand expression itself logs still produces its own message with its own file, line, level and text.", "quantifier": "all nesting structures", "why_tests_cant": "no test nests log statements", "anchors": ["src/include/falcon/logger.h: AutoEnd", "src/include/falcon/logger.h: m_composer"]}
{"id": "C48", "title": "LOG_BLOCK produces one message and cannot leak", "statement": "A LOG_BLOCK body that runs to its end produces exactly one message with the concatenated text; leaving the body early leaves no trace in the following messages.", "quantifier": "all block bodies and exits", "why_tests_cant": "no test leaves a block early", "anchors": ["src/include/falcon/logger.h: LOG_BLOCK", "src/include/falcon/logger.h: BlockEnd"]}
{"id": "C49", "title": "Temporary category", "statement": "LOG_CAT(c) with non-empty c overrides the category of its own message only; later messages carry the thread's category again.", "quantifier": "all statement sequences", "why_tests_cant": "the claim ranges over every value and every preceding history; tests only sample a few of them", "anchors": ["src/include/falcon/logger.h: setTempCategory", "src/include/falcon/logger.h: commit"]}
{"id": "C50", "title": "LOG_CATEGORY takes effect", "statement": "After LOG_CATEGORY(c) every following enabled log statement of the thread carries category c.", "quantifier": "all compile-time levels, run-time levels and statement sequences", "why_tests_cant": "the tests only use the default compile-time level", "anchors": ["src/include/falcon/logger.h: LOG_CATEGORY"]}
{"id": "C51", "title": "Compile-time filter", "statement": "With compile-time level m no statement with a level above m ever produces a message, at any run-time level; with LLDISABLE none at all does.", "quantifier": "all compile-time levels, run-time levels, statements", "why_tests_cant": "configuration space", "anchors": ["src/include/falcon/logger.h: FALCON_MIN_LOG_LEVEL", "src/include/falcon/logger.h: LLDISABLE", "src/include/falcon/logger.h: AutoEnd", "src/include/falcon/logger.h: BlockEnd"]}
{"id": "C52", "title": "clearFilter restores the level in force before filtering", "statement": "After any sequence of categoryFilter calls followed by clearFilter, the general level is what it was before the first of them; clearFilter without filter has no effect.", "quantifier": "all filter call sequences and levels", "why_tests_cant": "the test uses one filter call", "anchors": ["src/engine/logger.cpp: Logger::categoryFilter", "src/engine/logger.cpp: Logger::clearFilter"]}
{"id": "C53", "title": "categoryFilter does not widen the default listener", "statement": "While a category filter raises the general level, messages above the previous general level that do not match the filter are not written by the default listener (the documentation says the default listener's level is lowered accordingly), and at most one filter is active.", "quantifier": "all levels, categories and messages", "why_tests_cant": "the test lowers the default listener by hand", "anchors": ["src/engine/logger.cpp: Logger::categoryFilter", "src/include/falcon/logger.h: Logger_category_help documentation"]}
{"id": "C54", "title": "Log line format", "statement": "A LogStreamListener writes for each message exactly: date and time as YYYY-MM-DD hh:mm:ss, the level tag in brackets, the category in parentheses only if not empty, the file name without directory, a colon, the line number, the message text and a newline; level, category, file, line and text can be read back from the line when they contain no separator characters.", "quantifier": "all messages and times", "why_tests_cant": "string inputs are unbounded", "anchors": ["src/engine/logstream.cpp: LogStreamListener::onMessage"]}
{"id": "C55", "title": "Output sink selection", "statement": "Messages go to the stream given by the most recent own/share/writeOn call (to nowhere before the first one), and a stream passed by own or share is not destroyed while it is the current sink.", "quantifier": "all sequences of sink changes and messages", "why_tests_cant": "sequences are unbounded", "anchors": ["src/include/falcon/logstream.h: own", "src/include/falcon/logstream.h: share", "src/include/falcon/logstream.h: writeOn"]}
{"id": "C56", "title": "Proxy listener", "statement": "A proxy hands every message it accepts to the target listener, with the proxy's filters only: the target's own level, category and enabled state are not consulted.", "quantifier": "all settings and messages", "why_tests_cant": "the claim ranges over every value and every preceding history; tests only sample a few of them", "anchors": ["src/include/falcon/logproxy.h: LogProxyListener::onMessage"]}
{"id": "C57", "title": "Code text round trip", "statement": "For every source text, Code(text).toString() is text.", "quantifier": "all strings of all lengths", "why_tests_cant": "the failures need 1000 characters or an embedded NUL", "anchors": ["src/engine/code.cpp: Code::Code", "src/engine/code.cpp: Code::toString"]}
{"id": "C58", "title": "Code objects can be copied and assigned", "statement": "Copying, assigning, moving and destroying Code objects in any order never frees a buffer twice, never uses a freed buffer and never loses one.", "quantifier": "all programs over Code objects", "why_tests_cant": "tests never copy", "anchors": ["src/engine/code.cpp: Code::Code(const Code&)", "src/engine/code.cpp: Code::Code(Code&&)", "src/engine/code.cpp: Code::~Code", "src/include/falcon/engine/code.h: operator="]}
{"id": "C59", "title": "Compiler reads one whitespace-delimited token", "statement": "compile(input) yields a Code whose text is the first maximal run of non-blank characters of the input (empty if there is none) and leaves the input positioned right after it.", "quantifier": "all inputs", "why_tests_cant": "string inputs are unbounded", "anchors": ["src/engine/compiler.cpp: Compiler::compile"]}
{"id": "C60", "title": "Integer items preserve their value", "statement": "For every value of every accepted integer type, Item(v).toInt() is v, toBool() is (v != 0) and toString() is the decimal form of v.", "quantifier": "all values of char, byte, int32, uint32, int64, uint64", "why_tests_cant": "value space", "anchors": ["src/include/falcon/engine/item.h: Item(T)", "src/include/falcon/engine/item.h: toInt", "src/include/falcon/engine/item.h: toString", "src/include/falcon/engine/itemdata.h: ItemData(const T&)", "src/include/falcon/engine/inthandler.h: IntHandler"]}
{"id": "C61", "title": "Decimal text round trip through items", "statement": "For every int64 n, Item(Item(n).toString()).toInt() is n.", "quantifier": "all int64 values", "why_tests_cant": "value space", "anchors": ["src/include/falcon/engine/stringhandler.h: toInt", "src/include/falcon/engine/inthandler.h: toString"]}
{"id": "C62", "title": "String items convert or report an error", "statement": "Item(s).toString() is s, toBool() is (s not empty), and toInt() on a text that is not a number reports an error the caller can handle.", "quantifier": "all strings", "why_tests_cant": "string inputs are unbounded", "anchors": ["src/include/falcon/engine/stringhandler.h: StringHandler"]}
{"id": "C63", "title": "Items own their data", "statement": "Constructing, copying and destroying items in any order frees every owned string exactly once and never uses a freed one.", "quantifier": "all programs over items", "why_tests_cant": "tests never copy items", "anchors": ["src/include/falcon/engine/item.h: Item::~Item", "src/include/falcon/engine/item.h: implicit copy", "src/include/falcon/engine/deephandler.h: destroy"]}
{"id": "C64", "title": "handler.allocate and handler.destroy match", "statement": "Data obtained from a handler's allocate() can be used with, and released by, the same handler.", "quantifier": "all handlers", "why_tests_cant": "no test calls allocate", "anchors": ["src/include/falcon/engine/deephandler.h: allocate", "src/include/falcon/engine/deephandler.h: destroy", "src/include/falcon/engine/itemdata.h: ItemData(const T&)"]}
{"id": "C65", "title": "Float items", "statement": "toBool() of a float item is false exactly for the two zeros, and toInt() is the value truncated towards zero for every value whose truncation fits in 64 bits.", "quantifier": "all double values", "why_tests_cant": "value space", "anchors": ["src/include/falcon/engine/floathandler.h: FloatHandler"]}
{"id": "C66", "title": "Nil and bool items", "statement": "The default item is nil (toString nil, toBool false, toInt 0); Item(b) converts to b, to 1/0 and to true/false. Constructing an item from a value of an unsupported type throws.", "quantifier": "all values", "why_tests_cant": "the claim ranges over every value and every preceding history; tests only sample a few of them", "anchors": ["src/include/falcon/engine/nilhandler.h: NilHandler", "src/include/falcon/engine/boolhandler.h: BoolHandler"]}
{"id": "C67", "title": "Exit status of a test program", "statement": "performUnitTests returns 0 exactly when every selected test passed, and -1 otherwise, for any set of tests with any behaviour.", "quantifier": "all test sets and outcomes", "why_tests_cant": "quantifies over all test programs", "anchors": ["src/fut/unittest.cpp: performUnitTests", "src/fut/unittest.cpp: runAllTests", "src/fut/unittest.cpp: hasPassed"]}
{"id": "C68", "title": "Every selected test runs exactly once, grouped by component", "statement": "A run executes each selected test exactly once, components in lexicographic order and, within a component, in selection (registration) order; nothing else is executed.", "quantifier": "all registrations and -t selections", "why_tests_cant": "combinatorial", "anchors": ["src/fut/unittest.cpp: runAllTests", "src/fut/unittest.cpp: addTestCase"]}
{"id": "C69", "title": "Test verdict", "statement": "The status of a test is ERROR iff SetUp, the body or TearDown threw; otherwise FAIL iff a check failed; otherwise OUT_ON_ERROR_STREAM iff something was captured on stderr; otherwise SUCCESS; a failed check is never turned into success.", "quantifier": "all test behaviours", "why_tests_cant": "quantifies over all test programs", "anchors": ["src/fut/testcase.cpp: TestCase::run", "src/fut/testcase.cpp: checkFail"]}
{"id": "C70", "title": "stderr output fails a test only with -e", "statement": "Without the -e option, output on stderr does not make a test fail; with it, it does.", "quantifier": "all test behaviours and option settings", "why_tests_cant": "the claim ranges over every value and every preceding history; tests only sample a few of them", "anchors": ["src/fut/unittest.cpp: hasPassed", "src/fut/unittest.cpp: parseParams"]}
{"id": "C71", "title": "A re-run of a test is judged on its own output", "statement": "Running the same test case again gives a verdict that depends only on the new run.", "quantifier": "all run histories", "why_tests_cant": "tests run each case once", "anchors": ["src/fut/testcase.cpp: beginTest", "src/fut/testcase.cpp: endTest", "src/fut/testcase.cpp: run"]}
{"id": "C72", "title": "Repeated performUnitTests", "statement": "Every call of performUnitTests runs each selected test exactly once.", "quantifier": "all call histories", "why_tests_cant": "the framework's own tests call it once", "anchors": ["src/fut/unittest.cpp: performUnitTests", "src/fut/unittest.cpp: runAllTests"]}
{"id": "C73", "title": "Failed-cases report", "statement": "The final list of failed cases names exactly the tests that were run and did not pass.", "quantifier": "all test sets, selections, outcomes", "why_tests_cant": "combinatorial", "anchors": ["src/fut/unittest.cpp: report"]}
{"id": "C74", "title": "Quiet mode and verbosity", "statement": "At verbosity 0 the framework prints nothing; a higher verbosity prints everything a lower one prints.", "quantifier": "all tests, outcomes, verbosity levels", "why_tests_cant": "combinatorial", "anchors": ["src/fut/unittest.cpp: beginTest", "src/fut/unittest.cpp: endTest", "src/fut/unittest.cpp: report"]}
{"id": "C75", "title": "XML report counts", "statement": "In the XML report the test and failure counts of the suites add up to the totals of the report, and each suite's failure count is the number of failure elements in it.", "quantifier": "all test sets and outcomes", "why_tests_cant": "combinatorial", "anchors": ["src/fut/unittest.cpp: saveToXML", "src/fut/unittest.cpp: runAllTests"]}
{"id": "C76", "title": "XML report is well formed", "statement": "The XML report is a well-formed document for any test names and failure descriptions.", "quantifier": "all names and failure texts", "why_tests_cant": "string inputs are unbounded", "anchors": ["src/fut/unittest.cpp: saveToXML", "src/fut/testcase.cpp: checkFail"]}
{"id": "C77", "title": "Command line parsing", "statement": "parseParams accepts exactly the documented options; unknown options, missing arguments, unknown test names and invalid verbosity levels are refused with status 1.", "quantifier": "all argument vectors", "why_tests_cant": "argument vectors are unbounded", "anchors": ["src/fut/unittest.cpp: parseParams"]}
{"id": "C78", "title": "FAIL stops the test", "statement": "FAIL(msg) makes the test fail with that message and returns immediately from it.", "quantifier": "all test bodies", "why_tests_cant": "the claim ranges over every value and every preceding history; tests only sample a few of them", "anchors": ["src/include/falcon/fut/fut.h: FAIL", "src/include/falcon/fut/fut.h: EXPECT_THROW"]}
{"id": "C79", "title": "Check macros", "statement": "A failing EXPECT check ends the test with status FAIL, records the first failing check and executes nothing of the body after it; a passing one has no effect.", "quantifier": "all test bodies", "why_tests_cant": "quantifies over all test bodies", "anchors": ["src/include/falcon/fut/fut.h: FALCON_TEST_CHECK_LOGIC", "src/include/falcon/fut/fut.h: EXPECT_TRUE", "src/include/falcon/fut/fut.h: EXPECT_FALSE"]}
{"id": "C80", "title": "EXPECT_FLOAT_EQ tolerance", "statement": "EXPECT_FLOAT_EQ accepts values that are almost equal (within 1/10000) and rejects values that differ by more than that.", "quantifier": "all pairs of values", "why_tests_cant": "value space", "anchors": ["src/include/falcon/fut/fut.h: EXPECT_FLOAT_EQ", "src/include/falcon/fut/fut.h: EXPECT_FLOAT_NE"]}
{"id": "C81", "title": "Captured output is attributed to the right test", "statement": "With capture on, what a test writes to stdout and stderr is recorded for that test only and can be read back with capturedOut() and capturedErr(), and the standard streams are restored after each test, also when the test throws.", "quantifier": "all sequences of tests", "why_tests_cant": "combinatorial", "anchors": ["src/fut/testcase.cpp: beginTest", "src/fut/testcase.cpp: endTest", "src/fut/unittest.cpp: runAllTests"]}
{"id": "C82", "title": "TearDown always runs", "statement": "TearDown is executed after every test whose SetUp was executed.", "quantifier": "all test behaviours", "why_tests_cant": "the claim ranges over every value and every preceding history; tests only sample a few of them", "anchors": ["src/fut/testcase.cpp: run"]}
{"id": "C83", "title": "Elapsed time", "statement": "The elapsed time of an interval shorter than a day is its length in milliseconds, never negative, also when a time-of-day clock wraps at midnight; a test that throws during SetUp reports a sensible time.", "quantifier": "all clock readings", "why_tests_cant": "clock values cannot be scheduled by tests", "anchors": ["src/include/falcon/fut/timelapse.h: TimeLapse::elapsed", "src/include/falcon/fut/timelapse.h: elapsedNow", "src/fut/marktime-win.c++: markTime", "src/fut/testcase.cpp: run"]}
{"id": "C84", "title": "Test name detection", "statement": "detectTestName derives the test name from the program path by dropping the directory part and everything from the first dot on.", "quantifier": "all paths", "why_tests_cant": "string inputs are unbounded", "anchors": ["src/fut/unittest.cpp: detectTestName"]}
{"id": "C85", "title": "Atomic counters", "statement": "In every interleaving, atomicInc/atomicDec/atomicAdd on a shared counter lose no update, return the value right after their own update, and any fewer than 2^32 increments return pairwise different values; results wrap at 32 bits.", "quantifier": "all thread counts and schedules", "why_tests_cant": "schedules", "anchors": ["src/include/falcon/atomic_gcc.h: atomicInc", "src/include/falcon/atomic_gcc.h: atomicDec", "src/include/falcon/atomic_gcc.h: atomicAdd", "src/include/falcon/atomic_gcc.h: atomicCAS", "src/include/falcon/atomic_gcc.h: atomicExchange"]}
{"id": "C86", "title": "Atomic primitives agree across platforms", "statement": "The GCC and the Visual C++ variants of every atomic primitive have the same results and effects.", "quantifier": "all values", "why_tests_cant": "needs two platforms", "anchors": ["src/include/falcon/atomic_gcc.h: atomicAdd", "src/include/falcon/atomic_vc.h: atomicAdd"]}
{"id": "C87", "title": "Singleton", "statement": "All accesses through a Singleton<T> reach one and the same instance, created once; writes through mtbl are seen by every later read; distinct Singleton objects hold distinct instances.", "quantifier": "all access sequences", "why_tests_cant": "the claim ranges over every value and every preceding history; tests only sample a few of them", "anchors": ["src/include/falcon/singleton.h: Singleton::get", "src/include/falcon/singleton.h: mtbl"]}
{"id": "C88", "title": "distribute", "statement": "distribute(it, t1..tn) stores the n elements starting at it into t1..tn in order and never advances the iterator past the n-th element.", "quantifier": "all sequences, all n >= 1", "why_tests_cant": "the claim ranges over every value and every preceding history; tests only sample a few of them", "anchors": ["src/include/falcon/engine/distribute.h: distribute"]}
{"id": "C89", "title": "One winner of a compare-and-set race", "statement": "If any number of threads call atomicCAS on one counter with the counter's value as the expected value and other values to store, exactly one of the calls made succeeds, and the counter keeps the value of that call.", "quantifier": "all thread counts, values and schedules", "why_tests_cant": "schedules", "anchors": ["src/include/falcon/atomic_gcc.h: atomicCAS"]}
{"id": "C90", "title": "Exchange hands values over once", "statement": "In every interleaving of atomicExchange calls on one counter, the initial value and each value stored are returned by exactly one later call, except the one left in the counter.", "quantifier": "all thread counts, values and schedules", "why_tests_cant": "schedules", "anchors": ["src/include/falcon/atomic_gcc.h: atomicExchange"]}
{"id": "C91", "title": "Exit status of main", "statement": "main returns 1 and runs no test when the command line is refused; otherwise it returns 0 if every test the command line selects passed and -1 if one did not.", "quantifier": "all argument vectors, test sets and test behaviours", "why_tests_cant": "all argument vectors and behaviours", "anchors": ["src/fut/unittest.cpp: UnitTest::main", "src/fut/unittest.cpp: UnitTest::parseParams", "src/fut/unittest.cpp: UnitTest::performUnitTests"]}
{"id": "C92", "title": "Running a single test", "statement": "performTest(name) runs the test of that name exactly once and nothing else, gives it the same verdict as a full run, returns 0 exactly when it passed, and leaves the standard streams as they were; it throws and runs nothing if there is no such test.", "quantifier": "all test sets, names and behaviours", "why_tests_cant": "all behaviours", "anchors": ["src/fut/unittest.cpp: UnitTest::performTest"]}
{"id": "C93", "title": "Registration order and -t", "statement": "Tests are kept in the order of registration under the name component::case, and -t name selects the first test registered under that name.", "quantifier": "all registration sequences", "why_tests_cant": "all sequences, including duplicate names", "anchors": ["src/fut/unittest.cpp: UnitTest::addTestCase", "src/fut/unittest.cpp: UnitTest::parseParams"]}
{"id": "C94", "title": "A PagedStack guarded by a Futex is linearizable", "statement": "In a build without assertions, when threads share a PagedStack<T, Futex> and call push, push_emplace, pop, discard(n), peek, peek_depth, peek_reverse, size, empty and shrink_to_fit, the results they receive and the final contents are those of executing all the calls one after the other in one order that keeps each thread's program order and puts a call that returned before another began first.", "quantifier": "all numbers of threads, programs whose calls never ask for more elements than there are, decompositions of the calls into steps, schedules", "why_tests_cant": "schedule dependent", "anchors": ["src/include/falcon/engine/pagedstack.h: PagedStack", "src/include/falcon/futex.h: Futex"]}
{"id": "C95", "title": "PagedStack survives failing elements and allocations", "statement": "If a push or push_emplace cannot store an element because its copy throws or memory for its page runs out, or a pop into targets cannot assign one, the exception reaches the caller, the lock is free again, exactly the arguments before the failing one have taken effect, and every later call behaves as usual.", "quantifier": "all histories of calls, all positions of the failures, all page sizes", "why_tests_cant": "failure points in every history", "anchors": ["src/include/falcon/engine/pagedstack.h: PagedStack::push", "src/include/falcon/engine/pagedstack.h: PagedStack::push_emplace", "src/include/falcon/engine/pagedstack.h: PagedStack::pop", "src/include/falcon/engine/pagedstack.h: PagedStack::advance", "src/include/falcon/engine/pagedstack.h: PagedStack::growBase"]}
{"id": "C96", "title": "Futex orders memory", "statement": "Under the C++11 memory model, with the memory orders the code uses, threads that touch shared ordinary variables only between lock() and unlock() of one Futex have no data race, and every value they read is the one they would read if the guarded sections were executed one after the other in one order that keeps each thread's program order.", "quantifier": "all numbers of threads, sections and executions admitted by the memory model", "why_tests_cant": "depends on compiler and hardware reorderings, that no test controls", "anchors": ["src/include/falcon/futex.h: Futex::lock", "src/include/falcon/futex.h: Futex::unlock", "src/include/falcon/futex.h: Futex::isLocked"]}
{"id": "C97", "title": "Destroying a LogSystem", "statement": "When no other thread uses it any more, the destructor of a LogSystem ends the log thread and then deletes every message object, queued or pooled, exactly once; nothing that the messages owned is leaked.", "quantifier": "all histories and schedules before the destruction, including messages still queued", "why_tests_cant": "what is queued, pooled or in flight at the end depends on the schedule", "anchors": ["src/engine/logsystem.cpp: LogSystem::~LogSystem", "src/engine/logsystem.cpp: LogSystem::stop"]}
{"id": "C98", "title": "A failing listener does not harm the others", "statement": "An exception thrown by the onMessage of one listener leaves the log service running: the other listeners still receive the message, and later messages are still delivered.", "quantifier": "all listeners, messages and schedules", "why_tests_cant": "any callback may throw at any moment", "anchors": ["src/engine/logsystem.cpp: sendMessageToListeners", "src/engine/logsystem.cpp: loggingThread"]}
{"id": "C99", "title": "An invalid category filter changes nothing", "statement": "categoryFilter(c, l) with an invalid expression c throws InvalidCategory and leaves the filter in force and the general level as they were.", "quantifier": "all histories of level, categoryFilter and clearFilter calls, all invalid expressions", "why_tests_cant": "all histories", "anchors": ["src/engine/logger.cpp: Logger::categoryFilter"]}
{"id": "C100", "title": "The calls of a thread take effect one after the other", "statement": "Whatever the other threads and the callbacks do, each call that a thread made on the LogSystem or on a listener has exactly its documented effect (a message tested and queued, a listener added, a level, category or enabled state set, an exception thrown, the eight diagnostics read), and the effects occur in the order of the thread's program.", "quantifier": "all programs of all threads, all schedules, all callbacks", "why_tests_cant": "all interleavings", "anchors": ["src/engine/logsystem.cpp: LogSystem::log", "src/engine/logsystem.cpp: LogSystem::addListener", "src/engine/logsystem.cpp: LogSystem::getDiags", "src/engine/logsystem.cpp: LogSystem::start", "src/engine/logsystem.cpp: LogSystem::stop"]}
{"id": "C101", "title": "Log statements reach the listeners", "statement": "When threads execute log statements, each statement enabled by the level makes one message with its own file, line, level, category and text. If nobody changes the level and nobody else logs, then once all the threads are done and the queue is served, a listener added beforehand has received exactly the messages that its filter admits, each once and those of each thread in the order of its program; a log stream has written one line for each. Under a fair scheduler this state is reached, if the service runs, is not stopped, and callbacks do not throw.", "quantifier": "all numbers of threads, programs of log statements without side effects in their operands, schedules, callbacks", "why_tests_cant": "combines all schedules of the logging threads and of the log thread", "anchors": ["src/include/falcon/logger.h: Logger::commit", "src/include/falcon/logger.h: LOG", "src/include/falcon/logger.h: LOG_BLOCK", "src/include/falcon/logger.h: LOG_CATEGORY", "src/engine/logsystem.cpp: LogSystem::log", "src/engine/logsystem.cpp: loggingThread", "src/engine/logsystem.cpp: sendMessageToListeners", "src/engine/logstream.cpp: LogStreamListener::onMessage"]}
{"id": "C102", "title": "Exceptions in log statements", "statement": "If an operand of a log statement throws, when it is evaluated or when it is rendered, the exception reaches the caller, no message is sent for that statement, and the statements before and after it, of this and of the other threads, send what they would send without it.", "quantifier": "all programs, threads and schedules, all operands that throw", "why_tests_cant": "any operand of any statement may throw, among any interleaving", "anchors": ["src/include/falcon/logger.h: AutoEnd", "src/include/falcon/logger.h: operator<<", "src/include/falcon/logger.h: LOG", "src/include/falcon/logger.h: LOG_BLOCK"]}
{"id": "C103", "title": "Logging writes nothing of its own", "statement": "The log system itself writes nothing on standard output: what appears there is what the listeners write.", "quantifier": "all histories of messages, listeners and settings, all schedules", "why_tests_cant": "must hold for every message, filter and interleaving; test suites rarely look at standard output", "anchors": ["src/engine/logsystem.cpp: Listener::checkCategory", "src/engine/logsystem.cpp: sendMessageToListeners"]}
{"id": "C104", "title": "Log lines and the format of the stream", "statement": "The line that the stream listener writes for a message at a given time does not depend on what the program inserted in the same stream before (base, sign, adjustment, fill, pending width), and a line leaves the format of the stream as it found it.", "quantifier": "all messages, times, format states of the stream and sequences of insertions", "why_tests_cant": "the program may leave a stream in any state before any message", "anchors": ["src/engine/logstream.cpp: LogStreamListener::onMessage"]}
{"id": "C105", "title": "Formatting in log statements", "statement": "Manipulators in a log statement (std::hex, std::setw, std::setfill, ...) affect that statement only: the text of each message is that of its own operands on a stream in default format, and an operand whose insertion fails costs the rest of its own message at most.", "quantifier": "all programs of formatted log statements, numbers of threads and schedules", "why_tests_cant": "the text of a message could depend on any earlier statement of the thread", "anchors": ["src/include/falcon/logger.h: Logger::operator<<", "src/include/falcon/logger.h: readyStream", "src/include/falcon/logger.h: m_composer"]}
{"id": "C106", "title": "Reports of the test framework do not depend on the tests' formatting", "statement": "What the test framework reports on standard output about a test (its number, the line of a failed check, captured output) does not depend on the format or error state in which this or an earlier test left std::cout.", "quantifier": "all sequences of tests and all insertions and manipulators they apply to std::cout, all verbosities, with and without capture", "why_tests_cant": "any earlier test may have left std::cout in any state", "anchors": ["src/fut/unittest.cpp: UnitTest::beginTest", "src/fut/unittest.cpp: UnitTest::endTest", "src/fut/unittest.cpp: UnitTest::writeTestName", "src/fut/testcase.cpp: TestCase::beginTest", "src/fut/testcase.cpp: TestCase::endTest"]}
{"id": "C107", "title": "Running out of memory while logging", "statement": "If memory runs out in log(), addListener(), start(), category() or the constructor of LogSystem, std::bad_alloc reaches the caller and the call has no effect; all other messages are queued, ordered and delivered as usual; no message object is lost; and the program goes on.", "quantifier": "all schedules, programs and callbacks, any number of failing allocations at any moments", "why_tests_cant": "every allocation may fail, in any interleaving with the other threads", "anchors": ["src/engine/logsystem.cpp: LogSystem::log", "src/engine/logsystem.cpp: allocateMsg", "src/engine/logsystem.cpp: disposeMsg", "src/engine/logsystem.cpp: processNewListeners", "src/engine/logsystem.cpp: addListener", "src/engine/logsystem.cpp: start", "src/engine/logsystem.cpp: Listener::category", "src/engine/logsystem.cpp: LogSystem::LogSystem"]}
{"id": "C108", "title": "A log statement when memory runs out", "statement": "If memory runs out while a log statement (LOG, LOG_BLOCK, LOG_CAT, LOG_CATEGORY) is executed, the program sees std::bad_alloc and goes on, the statement sends its whole message or none, and the messages, texts and categories of the other statements are not affected.", "quantifier": "all programs of log statements with a handler around each, all levels, any number of failing allocations at any moments", "why_tests_cant": "every allocation of every statement may fail", "anchors": ["src/include/falcon/logger.h: Logger::commit", "src/include/falcon/logger.h: Logger::setCategory", "src/include/falcon/logger.h: Logger::setTempCategory", "src/include/falcon/logger.h: Logger::AutoEnd", "src/include/falcon/logger.h: Logger::BlockEnd", "src/include/falcon/logger.h: LOG", "src/include/falcon/logger.h: LOG_BLOCK", "src/include/falcon/logger.h: LOG_CAT", "src/include/falcon/logger.h: LOG_CATEGORY"]}
{"id": "C109", "title": "XML report contents", "statement": "The XML report has exactly one test case for each run of a test, in the suite of its component and under its case name, with a failure element exactly if that run did not succeed, and this element gives the kind of the failure and its text, file and line.", "quantifier": "all sets of tests, selections and behaviours of the tests", "why_tests_cant": "must hold for every combination of tests and outcomes", "anchors": ["src/fut/unittest.cpp: UnitTest::saveToXML", "src/fut/testcase.cpp: TestCase::statusDesc"]}
{"id": "C110", "title": "Console report of a test program", "statement": "For each test in order of execution, a test program shows on standard output what the verbosity asks for: the announcement, the captured output, the failure with its text, file and line or the status and time; then the tests that did not pass, each component with its result, and the verdict; nothing else, and in fixed columns.", "quantifier": "all sets of tests, selections, behaviours, verbosities, with and without capture", "why_tests_cant": "must hold for every combination of tests, outcomes and settings", "anchors": ["src/fut/unittest.cpp: UnitTest::beginTest", "src/fut/unittest.cpp: UnitTest::endTest", "src/fut/unittest.cpp: UnitTest::writeTestName", "src/fut/unittest.cpp: UnitTest::performUnitTests", "src/fut/unittest.cpp: UnitTest::reportFailed"]}
{"id": "C111", "title": "A check evaluates its arguments once", "statement": "A check (EXPECT_EQ, EXPECT_TRUE, EXPECT_FLOAT_EQ, ...) evaluates each argument once, passes exactly if the comparison of the two values holds, and otherwise reports the value that was compared.", "quantifier": "all comparisons, all argument expressions with any effects on the state and any exceptions, all orders of evaluation", "why_tests_cant": "the arguments are arbitrary expressions", "anchors": ["src/include/falcon/fut/fut.h: FALCON_TEST_CHECK_LOGIC", "src/include/falcon/fut/fut.h: EXPECT_TRUE", "src/include/falcon/fut/fut.h: EXPECT_FALSE", "src/include/falcon/fut/fut.h: EXPECT_FLOAT_EQ", "src/fut/testcase.cpp: checkFail"]}
{"id": "C112", "title": "Reported times add up", "statement": "The time reported for a run of a test program is the time between its beginning and its end; the times of the components add up to no more than that, and the times of the tests of a component to no more than the time of the component, also when the clock passes midnight.", "quantifier": "all sets of tests, selections and behaviours (including exceptions in SetUp, test and TearDown), all clocks that do not go back", "why_tests_cant": "the readings of the clock cannot be scheduled, and any combination of tests and exceptions may occur", "anchors": ["src/fut/unittest.cpp: UnitTest::runAllTests", "src/fut/unittest.cpp: UnitTest::performTest", "src/fut/testcase.cpp: TestCase::run", "src/include/falcon/fut/timelapse.h: TimeLapse::elapsed", "src/include/falcon/fut/timelapse.h: markBegin", "src/include/falcon/fut/timelapse.h: markEnd"]}
{"id": "C113", "title": "Stacks can be moved and swapped", "statement": "Moving a PagedStack, by construction or assignment, gives the target the contents of the source, whatever their page sizes; swapping exchanges the contents; neither these nor copying or destroying other stacks changes what the calls on a stack return, as long as a stack that was moved away or made by copying is not called before it is assigned a new value by moving. At any time each page belongs to one stack only, so that none is freed twice.", "quantifier": "all numbers of stacks, page sizes, contents, and all histories of creation, calls, moves, copies and destruction", "why_tests_cant": "the implicit member-wise move keeps an iterator into a list that changes hands; every history of several objects matters", "anchors": ["src/include/falcon/engine/pagedstack.h: PagedStack (implicit move and copy)", "src/include/falcon/engine/pagedstack.h: m_curBase", "src/include/falcon/engine/pagedstack.h: m_base"]}
{"id": "C114", "title": "An iterator is a mark", "statement": "A forward iterator taken on a stack, begin() += k, stays valid as long as later calls do not remove the element it addresses: pushing, popping, trimming and growing do not disturb it, it keeps addressing the same position of the stack, in the same block, and is then equal to begin() += k', where k' is the number of elements now above it.", "quantifier": "all page sizes, pre-allocations, histories before and after the iterator was taken, depths", "why_tests_cant": "an iterator holds a block and an offset into it; every history that moves the top over block boundaries while the iterator is kept matters", "anchors": ["src/include/falcon/engine/pagedstack.h: begin", "src/include/falcon/engine/pagedstack.h: iterator_base", "src/include/falcon/engine/pagedstack.h: operator+=", "src/include/falcon/engine/pagedstack.h: internal_push", "src/include/falcon/engine/pagedstack.h: internal_pop", "src/include/falcon/engine/pagedstack.h: shrink_to_fit"]}
{"id": "C115", "title": "Refused command lines are explained", "statement": "When a test program refuses its command line, it says why and does nothing else: -h gives the help, an unknown test is named, and anything else wrong gives \"Invalid options\" on standard error and the help; nothing is written about an accepted command line, and every option that is accepted is in the help.", "quantifier": "all command lines, with any number of good options before the culprit, and all sets of tests", "why_tests_cant": "there are infinitely many command lines and places for the culprit", "anchors": ["src/fut/unittest.cpp: UnitTest::parseParams", "src/fut/unittest.cpp: UnitTest::usage"]}
{"id": "C116", "title": "Waiting for a futex ends", "statement": "Under a fair scheduler every call of Futex::lock() returns, however many threads compete, as long as every critical section ends and compare-exchange does not fail spuriously for ever; and the number of times a waiting thread can be overtaken is bounded.", "quantifier": "all numbers of threads, all finite lists of critical sections, all infinite fair schedules with spurious failures, all spin counts", "why_tests_cant": "fairness and starvation are about infinite executions", "anchors": ["src/include/falcon/futex.h: Futex::lock", "src/include/falcon/futex.h: Futex::unlock"]}
{"id": "C117", "title": "Every legal call on a PagedStack is safe, after any history", "statement": "Whatever calls were made before, including removals through iterators and clear(), a call that is within its domain for what the stack now holds (what iterating from begin() to end() shows) returns without undefined behaviour and with the result a LIFO stack holding those values gives. It leaves what a LIFO stack would, except that a push may bring back, below the pushed value, values removed earlier, and clear() may keep the lowest values, at most a page of them. The stack never holds a value the caller did not put in, nor one more often than it was put in.", "quantifier": "all page sizes, pre-allocations and histories of legal calls, with no restriction on page boundaries", "why_tests_cant": "the dangerous histories are those that re-enter a page after a removal that ended on its boundary; there are infinitely many continuations of each", "anchors": ["src/include/falcon/engine/pagedstack.h: PagedStack::push", "src/include/falcon/engine/pagedstack.h: PagedStack::discard", "src/include/falcon/engine/pagedstack.h: PagedStack::pop_reverse", "src/include/falcon/engine/pagedstack.h: PagedStack::clear", "src/include/falcon/engine/pagedstack.h: PagedStack::internal_discard"]}
{"id": "C118", "title": "Settings of a listener can be read and changed from any thread", "statement": "While any threads set and read the category filter, the level, the enabling and the detaching of a listener, and its log thread checks categories: every verdict on a category is the one of the filter set last (never of a half-changed filter; a filter that is refused has no effect); level(), isEnabled() and isDetached() tell what was set last; the text category() refers to is the one set last; and no two of these accesses are a data race.", "quantifier": "all numbers of threads, sequences of calls, filters and interleavings", "why_tests_cant": "data races and half-changed states need a particular interleaving of a few instructions", "anchors": ["src/include/falcon/logsystem.h: Listener::category", "src/include/falcon/logsystem.h: Listener::level", "src/include/falcon/logsystem.h: Listener::enable", "src/include/falcon/logsystem.h: Listener::isEnabled", "src/include/falcon/logsystem.h: Listener::detach", "src/include/falcon/logsystem.h: Listener::isDetached", "src/engine/logsystem.cpp: Listener::checkCategory"]}
{"id": "C119", "title": "Log lines are written in one piece and show their own time", "statement": "When several threads (the log threads of several log systems, or threads of the program) call onMessage of stream listeners, and others direct the listeners to other streams, every stream contains the complete lines of the messages written on it one after the other, and each line shows the local time of its own call.", "quantifier": "all numbers of threads, listeners and streams, all messages, times and interleavings", "why_tests_cant": "the interleaving of single insertions and of localtime's shared buffer is not controllable from a test", "anchors": ["src/engine/logstream.cpp: LogStreamListener::onMessage", "src/include/falcon/logstream.h: LogStreamListener::own", "src/include/falcon/logstream.h: LogStreamListener::share", "src/include/falcon/logstream.h: LogStreamListener::writeOn"]}
{"id": "C120", "title": "Measuring and waiting", "statement": "The clock of the test framework gives the time in milliseconds; the time it measures between two moments is right up to a millisecond; waitTime(d) asks to wait for no less than d milliseconds, and the time measured around it is at least d. On every platform, for all times and intervals.", "quantifier": "all times since 1970, all intervals, all waits, Unix and Windows, 32- and 64-bit times", "why_tests_cant": "overflows and wrap-arounds occur at times and intervals (weeks, days, 72 minutes) no test waits for", "anchors": ["src/fut/marktime-unix.c++: markTime", "src/fut/marktime-unix.c++: waitTime", "src/fut/marktime-win.c++: markTime", "src/fut/marktime-win.c++: waitTime", "src/include/falcon/fut/timelapse.h: TimeLapse::elapsed", "src/include/falcon/fut/timelapse.h: TimeLapse::elapsedNow"]}
{"id": "C121", "title": "Synchronised iterators work across threads", "statement": "When threads share a PagedStack<T, Futex> and each creates, uses and destroys synchronised iterators of its own while all call the stack, there is one order of all the calls, the order of their lock acquisitions and in agreement with each thread's own order, such that nothing is undefined, every get() yields an element that is in the stack at that place in the order, iterators throw exactly where the stack is empty, the stack's calls return what a LIFO stack returns there, and the contents at rest are those the order leads to.", "quantifier": "all numbers of threads and their call sequences, all page sizes, all schedules of the steps of the calls, spurious failures included", "why_tests_cant": "iterators are disturbed only by particular interleavings of other threads' calls, which a test cannot bring about", "anchors": ["src/include/falcon/engine/pagedstack.h: sync_iterator_base", "src/include/falcon/engine/pagedstack.h: sync_begin", "src/include/falcon/engine/pagedstack.h: sync_end", "src/include/falcon/engine/pagedstack.h: removeSyncIterator", "src/include/falcon/futex.h: Futex::lock", "src/include/falcon/futex.h: Futex::unlock"]}
{"id": "C122", "title": "A synchronised iterator is a position counted from the bottom", "statement": "A synchronised iterator behaves as a position counted from the bottom of the stack, whatever is pushed and popped meanwhile: get() yields the element at the position, or the top if the stack has become smaller; ++ and -- move by one; sync_begin() is the position of the top, sync_end() the one past the bottom; two iterators compare equal exactly if their positions are the same; on an empty stack it throws.", "quantifier": "all page sizes, pre-allocations, histories of calls of the stack and of any number of iterators", "why_tests_cant": "the positions depend on how the contents lie in pages, on iterators that are behind the top, and on pages given back; infinitely many histories", "anchors": ["src/include/falcon/engine/pagedstack.h: sync_iterator_base::get", "src/include/falcon/engine/pagedstack.h: sync_iterator_base::operator++", "src/include/falcon/engine/pagedstack.h: sync_iterator_base::operator--", "src/include/falcon/engine/pagedstack.h: sync_iterator_base::synchronize", "src/include/falcon/engine/pagedstack.h: sync_begin", "src/include/falcon/engine/pagedstack.h: sync_end"]}
{"id": "C123", "title": "The usual loop over a shared stack is safe, and sees what stays", "statement": "A loop from sync_begin() that compares with sync_end() before each get() and ++ and is left at the first exception is safe whatever others do to the stack between its calls, and with any number of such loops at a time: nothing is undefined, each get() yields an element then in the stack, and an exception tells that the stack is empty. If the others never go below what was in the stack when the loop began, the loop sees exactly that, from the top to the bottom, each element once, and ends.", "quantifier": "all page sizes, contents, numbers of loops and interleaved calls of others", "why_tests_cant": "the interleavings of others' pushes and pops with a loop are unboundedly many; tests exercise loops nobody disturbs", "anchors": ["src/include/falcon/engine/pagedstack.h: sync_iterator_base::get", "src/include/falcon/engine/pagedstack.h: sync_iterator_base::operator++", "src/include/falcon/engine/pagedstack.h: sync_iterator_base::operator==", "src/include/falcon/engine/pagedstack.h: sync_begin", "src/include/falcon/engine/pagedstack.h: sync_end"]}
{"id": "C124", "title": "Assertions of a stack are right, also when it is shared", "statement": "In builds with assertions, a PagedStack aborts the process only at a call that is outside its domain, and never lets such a call go on: with any number of threads sharing a PagedStack<T, Futex>, either an assertion failed, and the asserted call was outside its domain at that point, or every call so far had the effect and the result of a LIFO stack; nothing is undefined.", "quantifier": "all numbers of threads and their call sequences, all page sizes, all schedules of the steps of assertions and calls, spurious failures included", "why_tests_cant": "that another thread's call comes between the assertion and the call it is for needs a particular interleaving", "anchors": ["src/include/falcon/engine/pagedstack.h: PagedStack::pop", "src/include/falcon/engine/pagedstack.h: PagedStack::discard", "src/include/falcon/engine/pagedstack.h: PagedStack::peek", "src/include/falcon/engine/pagedstack.h: PagedStack::peek_depth", "src/include/falcon/engine/pagedstack.h: PagedStack::peek_reverse", "src/include/falcon/engine/pagedstack.h: PagedStack::empty", "src/include/falcon/engine/pagedstack.h: PagedStack::size", "src/include/falcon/futex.h: Futex::lock", "src/include/falcon/futex.h: Futex::unlock"]}
{"id": "C125", "title": "Critical sections of the log system are as good as single steps", "statement": "When log(), addListener(), stop(), getDiags() and the log thread are executed statement by statement, with the mutexes locked and unlocked in between, by any number of threads: no two threads are ever in sections of the same mutex; what can be observed is exactly what could be observed if each section were executed in one piece; no wake-up of the log thread is lost between two statements; a thread that holds a mutex never waits for another, so it always gets to release it; under a fair scheduler every queued message is dispatched and every call returns; and no behaviour is undefined.", "quantifier": "all numbers of threads, programs, callbacks and interleavings of single statements", "why_tests_cant": "the interleavings of single statements cannot be controlled from a test, and a missing lock shows only in few of them", "anchors": ["src/engine/logsystem.cpp: LogSystem::log", "src/engine/logsystem.cpp: LogSystem::allocateMsg", "src/engine/logsystem.cpp: LogSystem::disposeMsg", "src/engine/logsystem.cpp: LogSystem::addListener", "src/engine/logsystem.cpp: LogSystem::processNewListeners", "src/engine/logsystem.cpp: LogSystem::loggingThread", "src/engine/logsystem.cpp: LogSystem::stop", "src/engine/logsystem.cpp: LogSystem::getDiags"]}
