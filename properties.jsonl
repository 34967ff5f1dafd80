{"id": "C01", "title": "Order book behaves like a price-time-priority exchange over any history", "statement": "Starting from an empty book, after any sequence of accepted requests (add, limit, market, cancel, modify, change quantity, remove-any, L2 snapshot, snapshot decomposition) every reply and the set of resting orders (id, side, price, quantity, queue position) are those of a reference exchange that keeps one flat list of resting orders in arrival order.", "quantifier": "all request sequences whose requests satisfy the stated preconditions (unique ids, positive quantities, quantities fitting u64), both overflow-check settings", "why_tests_cant": "unit tests fix a handful of request sequences; queue position and running totals depend on the whole history", "anchors": ["trading-engine/src/orderbook/mod.rs: OrderBook::process_limit_order", "trading-engine/src/orderbook/mod.rs: OrderBook::process_market_order", "trading-engine/src/orderbook/mod.rs: OrderBook::modify_order", "trading-engine/src/orderbook/mod.rs: OrderBook::cancel_order", "trading-engine/src/orderbook/half_book.rs: HalfBook::add_limit_order"]}
{"id": "C02", "title": "Aggregate quantities always equal the resting orders", "statement": "get_total_quantity of each side, aggregate_quantity_at_price for every price and each level snapshot's quantity equal the sum of the quantities of the orders resting there, and check_validity_quantity returns true.", "quantifier": "all valid request histories, all prices", "why_tests_cant": "counters are updated incrementally in about fifteen places; a drift appears only after particular interleavings of partial fills, cancels and modifications", "anchors": ["trading-engine/src/orderbook/half_book.rs: HalfBook::get_total_quantity", "trading-engine/src/orderbook/half_book.rs: HalfBook::aggregate_quantity_at_price", "trading-engine/src/orderbook/half_book.rs: HalfBook::check_validity_quantity"]}
{"id": "C03", "title": "Market sell orders keep the book consistent", "statement": "After process_market_order with side Ask the bid levels' quantities equal the sum of their resting orders and the call returns normally.", "quantifier": "all well-formed books and quantities", "why_tests_cant": "the wrong update (level quantity subtracted twice) is observable only on partially consumed bid levels, or as a panic in overflow-checked builds", "anchors": ["trading-engine/src/orderbook/mod.rs: OrderBook::process_market_order", "trading-engine/src/orderbook/half_book.rs: HalfBook::bid_trade_market_order"]}
{"id": "C04", "title": "Best price is the best resting price", "statement": "best_price of a side is the lowest ask / highest bid among resting orders, and the documented sentinel (i64::MAX / i64::MIN) when the side is empty.", "quantifier": "all valid request histories", "why_tests_cant": "best_price is cached and repaired differently by each operation", "anchors": ["trading-engine/src/orderbook/half_book.rs: HalfBook::best_price", "trading-engine/src/orderbook/half_book.rs: HalfBook::reinitialize_best_price", "trading-engine/src/orderbook/half_book.rs: HalfBook::update_best_price"]}
{"id": "C05", "title": "Order index coherence", "statement": "get_order(id) never panics; it returns the resting order with that id (right side, price and remaining quantity) iff such an order rests on that side; get_price agrees; ids of filled, cancelled or removed orders are forgotten.", "quantifier": "all valid request histories, all ids", "why_tests_cant": "the id index and the level queues are two structures that must stay in step through every mutation", "anchors": ["trading-engine/src/orderbook/half_book.rs: HalfBook::get_order", "trading-engine/src/orderbook/half_book.rs: HalfBook::get_price", "trading-engine/src/orderbook/half_book.rs: HalfBook::cache"]}
{"id": "C06", "title": "Limit price protection and price improvement order", "statement": "Every execution of a limit order is at a price at least as good as its limit, executions are reported from best to worse price, each price at most once, each quantity positive.", "quantifier": "all valid histories and incoming limit orders", "why_tests_cant": "depends on all book shapes", "anchors": ["trading-engine/src/orderbook/mod.rs: OrderBook::process_limit_order", "trading-engine/src/orderbook/half_book.rs: HalfBook::trade_limit_order"]}
{"id": "C07", "title": "Quantity conservation of matching", "statement": "Reported executed quantity plus reported leftover equals the order's quantity; the opposite side shrinks by exactly the executed quantity; the own side grows by exactly the leftover for a limit order and not at all for a market order.", "quantifier": "all valid histories and incoming orders", "why_tests_cant": "needs arithmetic identities over arbitrary queues", "anchors": ["trading-engine/src/orderbook/mod.rs: OrderBook::process_limit_order", "trading-engine/src/orderbook/mod.rs: OrderBook::process_market_order"]}
{"id": "C08", "title": "The book never crosses by limit orders", "statement": "If best bid < best ask before process_limit_order / modify_order / cancel / remove-any / market order then best bid < best ask afterwards.", "quantifier": "all valid histories made of matching requests", "why_tests_cant": "depends on all book shapes", "anchors": ["trading-engine/src/orderbook/mod.rs: OrderBook::process_limit_order", "trading-engine/src/orderbook/mod.rs: OrderBook::modify_order"]}
{"id": "C09", "title": "Every limit order trades or rests", "statement": "After process_limit_order with a positive quantity, the order has been executed completely, or the unexecuted quantity rests under its id.", "quantifier": "all books, all i64 limit prices including the extremes", "why_tests_cant": "the order is silently dropped only when the opposite side is empty and the limit equals the sentinel price", "anchors": ["trading-engine/src/orderbook/mod.rs: OrderBook::process_limit_order", "trading-engine/src/orderbook/half_book.rs: HalfBook::trade_limit_order"]}
{"id": "C10", "title": "Cancel removes exactly one order", "statement": "cancel_order(id) returns Some iff id rests; then only that order disappears and all other orders keep side, price, quantity and relative order; if id does not rest, nothing changes.", "quantifier": "all valid histories, all ids", "why_tests_cant": "frame condition over all other orders", "anchors": ["trading-engine/src/orderbook/mod.rs: OrderBook::cancel_order", "trading-engine/src/orderbook/half_book.rs: HalfBook::cancel_order", "trading-engine/src/orderbook/level.rs: Level::cancel_order"]}
{"id": "C11", "title": "Modify keeps or loses priority as documented", "statement": "modify_order at the same price changes only that order's quantity and keeps its queue position; at a new price it behaves exactly like cancel followed by a fresh limit order with the same id; an unknown id changes nothing and returns None.", "quantifier": "all valid histories, ids, prices, positive quantities", "why_tests_cant": "frame and ordering conditions over all books", "anchors": ["trading-engine/src/orderbook/mod.rs: OrderBook::modify_order", "trading-engine/src/orderbook/half_book.rs: HalfBook::change_quantity"]}
{"id": "C12", "title": "Remove-any takes the youngest quantity at one price", "statement": "remove_order(price, q, side) terminates, removes min(q, resting quantity at the price) from the youngest orders first, returns the unremoved part, leaves all other prices untouched and drops the level when it becomes empty.", "quantifier": "all valid books, prices and quantities", "why_tests_cant": "termination and LIFO frame conditions range over all queues", "anchors": ["trading-engine/src/orderbook/mod.rs: OrderBook::remove_order", "trading-engine/src/orderbook/half_book.rs: HalfBook::remove_order"]}
{"id": "C13", "title": "Zero-quantity orders do not break the book", "statement": "With zero-quantity orders (change_quantity to 0, zero-quantity limit orders or snapshot rows) the index stays coherent, remove_order terminates and levels disappear when their quantity is removed.", "quantifier": "all u64 quantities including 0", "why_tests_cant": "needs the specific zero cases plus later operations", "anchors": ["trading-engine/src/orderbook/half_book.rs: HalfBook::change_quantity", "trading-engine/src/orderbook/half_book.rs: HalfBook::remove_order", "trading-engine/src/orderbook/half_book.rs: HalfBook::cancel_order", "trading-engine/src/orderbook/level.rs: Level::trade"]}
{"id": "C14", "title": "Snapshot decomposition reaches the snapshot", "statement": "After decomposed_orders_with_update the resting quantity at every price of each side is the snapshot's (0 for prices not listed), the emitted orders are the per-price differences (one add or one remove-any per changed price, none for unchanged prices).", "quantifier": "all valid books and snapshots with distinct prices and positive quantities", "why_tests_cant": "ranges over all pairs of book and snapshot", "anchors": ["trading-engine/src/orderbook/mod.rs: OrderBook::decomposed_orders_with_update", "trading-engine/src/orderbook/half_book.rs: HalfBook::decomposed_orders_with_update"]}
{"id": "C15", "title": "Decomposed orders replay", "statement": "Applying the orders emitted by decomposed_orders_with_update to any other book with the same per-price quantities produces a book with the same per-price quantities as the snapshot.", "quantifier": "all pairs of level-equal books, all valid snapshots", "why_tests_cant": "relational property over pairs of books", "anchors": ["trading-engine/src/orderbook/half_book.rs: HalfBook::decomposed_orders_with_update", "trading-engine/src/orderbook/half_book.rs: HalfBook::add_limit_order", "trading-engine/src/orderbook/half_book.rs: HalfBook::remove_order"]}
{"id": "C16", "title": "L2 snapshot update makes the book equal to the snapshot", "statement": "After update_from_quote_snapshot / update_from_trade_quote_snapshot on an L2 book (one order per level) the level list equals the snapshot's rows and the book invariants hold; surviving levels keep their order id.", "quantifier": "all L2 books, all snapshots with distinct prices and positive quantities", "why_tests_cant": "ranges over all book/snapshot pairs", "anchors": ["trading-engine/src/orderbook/mod.rs: OrderBook::update_from_quote_snapshot", "trading-engine/src/orderbook/mod.rs: OrderBook::update_from_trade_quote_snapshot", "trading-engine/src/orderbook/half_book.rs: HalfBook::update_l2_snapshot"]}
{"id": "C17", "title": "L2 snapshot update is exact on any book and any feed snapshot", "statement": "update_from_quote_snapshot leaves total quantity equal to the sum of the snapshot and creates no level for empty (zero-quantity) snapshot rows, also on books holding several orders per level.", "quantifier": "all books and snapshots, including multi-order levels and zero rows as sent by the exchange", "why_tests_cant": "the failing cases need multi-order levels or padded rows", "anchors": ["trading-engine/src/orderbook/half_book.rs: HalfBook::update_l2_snapshot"]}
{"id": "C18", "title": "Wrong instrument is rejected without effect", "statement": "update_from_quote_snapshot / update_from_trade_quote_snapshot with an id different from the book's returns Err and leaves the book unchanged.", "quantifier": "all books, ids and snapshots", "why_tests_cant": "universally quantified no-effect condition", "anchors": ["trading-engine/src/orderbook/mod.rs: OrderBook::update_from_quote_snapshot", "trading-engine/src/orderbook/mod.rs: OrderBook::check_id"]}
{"id": "C19", "title": "Virtual order ids are never reused", "statement": "All order ids created by snapshot updates and decompositions in one book's life are pairwise distinct and increasing.", "quantifier": "all histories with fewer than 2^64 virtual ids", "why_tests_cant": "history property", "anchors": ["trading-engine/src/types/base.rs: VirtualOrderId::next_id", "trading-engine/src/orderbook/mod.rs: OrderBook::decomposed_orders_with_update"]}
{"id": "C20", "title": "Level snapshots are sorted and complete", "statement": "ask_level_snapshot / bid_level_snapshot list every occupied price exactly once in increasing order with the right quantity and order count.", "quantifier": "all valid histories", "why_tests_cant": "ranges over all books", "anchors": ["trading-engine/src/orderbook/mod.rs: OrderBook::ask_level_snapshot", "trading-engine/src/orderbook/half_book.rs: HalfBook::to_level_snapshot"]}
{"id": "C21", "title": "eq_level decides level equality", "statement": "eq_level(a, b) returns true iff both books have the same per-price quantity at every price; in particular it is symmetric.", "quantifier": "all pairs of valid books", "why_tests_cant": "one-directional loop: correctness in the other direction rests on the total-quantity invariant", "anchors": ["trading-engine/src/orderbook/mod.rs: OrderBook::eq_level", "trading-engine/src/orderbook/half_book.rs: HalfBook::eq_level"]}
{"id": "C22", "title": "OrderBook::default is a usable empty book", "statement": "A book built with Default accepts the same requests as one built with initialize_with_id.", "quantifier": "all first requests", "why_tests_cant": "derived Default gives both halves side Ask and best price 0", "anchors": ["trading-engine/src/orderbook/mod.rs: OrderBook (derive Default)", "trading-engine/src/orderbook/half_book.rs: HalfBook (derive Default)"]}
{"id": "C23", "title": "Digit fields read back their number", "statement": "parse_under8/16/32 on n ASCII digits return the number written, whatever bytes follow the field in memory, never panic and stay inside the allocation when it extends over the 8/16/32 byte read.", "quantifier": "all widths 1..32, all numbers, all surrounding memory, both build profiles", "why_tests_cant": "10^32 values times arbitrary trailing bytes; the SWAR masks need a proof", "anchors": ["trading-engine/src/utils/numeric_converter.rs: parse_under8", "trading-engine/src/utils/numeric_converter.rs: parse_under16", "trading-engine/src/utils/numeric_converter.rs: parse_under32"]}
{"id": "C24", "title": "Decimal points are removed", "statement": "parse_under*_with_floating_point on i digits, a point and d decimals return the number in units of the last decimal place.", "quantifier": "all splits i/d with total width up to 18, all numbers, all surrounding memory", "why_tests_cant": "depends on every combination of width, point position and trailing memory", "anchors": ["trading-engine/src/utils/numeric_converter.rs: parse_under8_with_floating_point", "trading-engine/src/utils/numeric_converter.rs: parse_under16_with_floating_point", "trading-engine/src/utils/numeric_converter.rs: parse_under32_with_floating_point"]}
{"id": "C25", "title": "An IntegerConverter reads the field of its configuration", "statement": "For every configuration accepted by IntegerConverter::new, to_u64/to_i64 of a field written in that format return its value (truncated to the integer part if drop_decimal_point).", "quantifier": "all configurations, values, padding bytes and surrounding memory", "why_tests_cant": "configurations times values", "anchors": ["trading-engine/src/utils/numeric_converter.rs: IntegerConverter::new", "trading-engine/src/utils/numeric_converter.rs: to_u64", "trading-engine/src/utils/numeric_converter.rs: to_i64"]}
{"id": "C26", "title": "The sign column decides the sign", "statement": "For signed configurations to_i64 returns plus or minus the magnitude according to the first byte ('0' or '+' positive, '-' negative).", "quantifier": "all signed configurations and all bytes", "why_tests_cant": "ranges over all bytes and magnitudes", "anchors": ["trading-engine/src/utils/numeric_converter.rs: to_i64"]}
{"id": "C27", "title": "Unchecked conversions agree with the checked ones", "statement": "to_u64_unchecked, to_nonnegative_i64_unchecked, to_u32_unchecked and to_long_u64_unchecked return what to_u64/to_i64 return on the same field.", "quantifier": "all configurations and all byte contents", "why_tests_cant": "equivalence of two implementations over all inputs", "anchors": ["trading-engine/src/utils/numeric_converter.rs: to_u64_unchecked", "trading-engine/src/utils/numeric_converter.rs: to_u32_unchecked", "trading-engine/src/utils/numeric_converter.rs: to_long_u64_unchecked", "trading-engine/src/utils/numeric_converter.rs: to_nonnegative_i64_unchecked"]}
{"id": "C28", "title": "Clock fields are read and rolled over by whole days", "statement": "parse_hhmmssuuuuuu of HHMMSSuuuuuu returns date + time of day + offset + k days with the least k >= 0 such that the result is later than the previous timestamp minus 15 hours, and advances the stored date by the same k days; it always terminates.", "quantifier": "all times of day, dates, previous timestamps, offsets without u64 overflow", "why_tests_cant": "a loop with state carried from message to message", "anchors": ["trading-engine/src/utils/numeric_converter.rs: parse_hhmmssuuuuuu", "trading-engine/src/types/timestamp.rs: DateUnixNanoGenerator"]}
{"id": "C29", "title": "A dense stream is stamped with its true times", "statement": "For every stream of messages in time order with gaps of at most nine hours, every message gets exactly its send time (plus the configured offset), across any number of midnights.", "quantifier": "all streams of any length", "why_tests_cant": "history property over unbounded streams", "anchors": ["trading-engine/src/utils/numeric_converter.rs: parse_hhmmssuuuuuu", "trading-engine/src/types/timestamp.rs: DateUnixNanoGenerator::increment"]}
{"id": "C30", "title": "Every stream is stamped with its true times", "statement": "The previous property without the bound on gaps, and for messages slightly out of order across midnight.", "quantifier": "all streams", "why_tests_cant": "history property", "anchors": ["trading-engine/src/utils/numeric_converter.rs: parse_hhmmssuuuuuu"]}
{"id": "C31", "title": "Seoul clock times become UTC unix nanoseconds", "statement": "With TimeStampConverter for KRX the returned u64 is the Unix time of the instant whose Seoul wall-clock time is in the message.", "quantifier": "all times of day and dates", "why_tests_cant": "relation to the calendar/time zone; the repository's tests encode the implementation's own answer", "anchors": ["trading-engine/src/utils/numeric_converter.rs: TimeStampConverter", "trading-engine/src/utils/numeric_converter.rs: parse_hhmmssuuuuuu"]}
{"id": "C32", "title": "KRX derivative quote messages are decoded", "statement": "For every quote message laid out as documented (header, five or ten levels, totals, end keyword) and every accepted level cut k, to_quote_snapshot returns a snapshot with the message's ISIN, its clock time, and exactly its first k levels (prices in the decimals of the product, quantities, order counts), whatever lies behind the payload in memory. A cut is accepted iff it is at most the number of levels.", "quantifier": "all headers, prices, volumes, counts, cuts, clocks, surrounding memory, both build profiles", "why_tests_cant": "the value space is 10^400; unit tests decode a handful of recorded packets", "anchors": ["trading-engine/src/data/krx/derivative_quote.rs: IFMSRPD0034", "trading-engine/src/data/krx/derivative_quote.rs: IFMSRPD0035", "trading-engine/src/data/krx/unroll_macro.rs: parse_unroll!", "trading-engine/src/data/krx/krx_converter.rs: get_krx_derivative_converter"]}
{"id": "C33", "title": "KRX derivative trade+quote messages are decoded", "statement": "The same for IFMSRPD0037/0038: also trade price, quantity, aggressor code ('0' undefined, '1' sell, else buy) and, if asked for, the cumulative quantity.", "quantifier": "all messages, cuts, both settings of with_cum_trd_qnt", "why_tests_cant": "value space; field offsets", "anchors": ["trading-engine/src/data/krx/derivative_trade.rs: IFMSRPD0037", "trading-engine/src/data/krx/derivative_trade.rs: IFMSRPD0038"]}
{"id": "C34", "title": "KRX derivative trade messages are decoded", "statement": "IFMSRPD0036: to_trade_data and to_trade_data_buffer return the message's ISIN, time, price, quantity, side and cumulative quantity.", "quantifier": "all messages and product formats", "why_tests_cant": "value space", "anchors": ["trading-engine/src/data/krx/derivative_trade.rs: IFMSRPD0036::to_trade_data", "trading-engine/src/data/krx/derivative_trade.rs: IFMSRPD0036::to_trade_data_buffer"]}
{"id": "C35", "title": "KRX stock quote messages are decoded", "statement": "IFMSRPD0002/0003: the ten levels' prices, quantities and LP quantities are the message's.", "quantifier": "all messages, cuts, with and without LP columns", "why_tests_cant": "value space", "anchors": ["trading-engine/src/data/krx/stock_quote.rs: IFMSRPD0002", "trading-engine/src/data/krx/stock_quote.rs: IFMSRPD0003"]}
{"id": "C36", "title": "A well-framed payload never panics a parser", "statement": "For every byte string of the right length ending in 0xFF, each parser returns: Ok with the ISIN in columns 17-28 if these are 12 ASCII characters without blank or tab, Err otherwise. No panic, no read outside the allocation.", "quantifier": "all byte contents (not only digits), all level cuts, all surrounding memory", "why_tests_cant": "256^n payloads", "anchors": ["trading-engine/src/data/krx/derivative_quote.rs: to_quote_snapshot", "trading-engine/src/data/krx/derivative_trade.rs: to_trade_quote_snapshot", "trading-engine/src/data/krx/stock_quote.rs: to_quote_snapshot", "trading-engine/src/types/id/isin_code.rs: IsinCode::new"]}
{"id": "C37", "title": "A badly framed payload is reported as an error", "statement": "A payload of the wrong length or without the end keyword makes every parser return Err.", "quantifier": "all byte strings", "why_tests_cant": "all lengths and contents", "anchors": ["trading-engine/src/data/checker.rs: is_valid_krx_payload"]}
{"id": "C38", "title": "Parsing into a buffer equals parsing afresh", "statement": "to_quote_snapshot_buffer succeeds, fails and advances the clock exactly as to_quote_snapshot; on success the first k levels and all other fields of the buffer are those of the fresh snapshot. After any session of messages into one buffer it shows the last good message.", "quantifier": "all payloads, all buffers large enough, all sessions", "why_tests_cant": "history property over arbitrary payloads", "anchors": ["trading-engine/src/data/krx/derivative_quote.rs: to_quote_snapshot_buffer", "trading-engine/src/data/krx/stock_quote.rs: to_quote_snapshot_buffer"]}
{"id": "C39", "title": "A buffer's effective levels and converters are those of its last message", "statement": "After a buffer variant returns Ok, effective_ask_data/effective_bid_data are the levels of that message, and the buffer's converters describe the format of its prices.", "quantifier": "all messages and buffers", "why_tests_cant": "depends on the buffer's history", "anchors": ["trading-engine/src/data/quote.rs: effective_ask_data", "trading-engine/src/data/trade_quote.rs: TradeQuoteSnapshot", "trading-engine/src/data/krx/derivative_trade.rs: IFMSRPD0038::to_trade_quote_snapshot_buffer"]}
{"id": "C40", "title": "A level cut keeps the first levels", "statement": "Parsing with cut k gives the snapshot of the whole-message parser with both sides truncated to k levels, and the same clock state.", "quantifier": "all payloads, cuts", "why_tests_cant": "all payloads", "anchors": ["trading-engine/src/data/krx/derivative_quote.rs: with_quote_level_cut", "trading-engine/src/data/krx/derivative_trade.rs: with_quote_level_cut"]}
{"id": "C41", "title": "Applying a quote message to the order book makes the book show the message", "statement": "Decoding a derivative quote message and passing the snapshot to update_from_quote_snapshot leaves a book whose levels are exactly the first k levels of the message.", "quantifier": "all messages with distinct prices and positive volumes, all reachable books with at most one order per level", "why_tests_cant": "composition over all messages and all book histories", "anchors": ["trading-engine/src/data/krx/derivative_quote.rs: to_quote_snapshot", "trading-engine/src/orderbook/mod.rs: update_from_quote_snapshot"]}
{"id": "C42", "title": "The spin queue has no data race", "statement": "With one producer and any number of workers with distinct identities, each touching the datum only between a get_mut/get that returned Some and the matching notify_all_workers/work_done, no two threads ever access the datum unsynchronised.", "quantifier": "all interleavings, all stale relaxed-coherence reads the release/acquire memory model permits, all history lengths, all data types", "why_tests_cant": "races depend on the schedule and on weak-memory reorderings a test machine does not produce", "anchors": ["trading-engine/src/spinqueue.rs: DataSpinQueue::get_mut", "trading-engine/src/spinqueue.rs: get", "trading-engine/src/spinqueue.rs: notify_all_workers", "trading-engine/src/spinqueue.rs: work_done"]}
{"id": "C43", "title": "Producer and workers exclude each other", "statement": "While the producer is between get_mut = Some and notify_all_workers, no worker is between get = Some and work_done.", "quantifier": "all schedules and history lengths", "why_tests_cant": "schedule-dependent", "anchors": ["trading-engine/src/spinqueue.rs: ready_to_update", "trading-engine/src/spinqueue.rs: ready_to_work"]}
{"id": "C44", "title": "Every published item reaches every worker exactly once, in order", "statement": "The k-th item a registered worker takes is the k-th published item; it is never skipped, taken twice or overwritten before work_done; get_mut returns Some only when every worker has finished every item.", "quantifier": "all schedules, histories, worker sets of up to 16", "why_tests_cant": "history and schedule property", "anchors": ["trading-engine/src/spinqueue.rs: get", "trading-engine/src/spinqueue.rs: notify_all_workers", "trading-engine/src/spinqueue.rs: work_done"]}
{"id": "C45", "title": "The spin queue cannot deadlock", "statement": "From every reachable contract-keeping state the workers alone can finish all published items, and then get_mut can succeed; a waiting item can be taken at once by its worker.", "quantifier": "all reachable states", "why_tests_cant": "needs a path from every reachable state", "anchors": ["trading-engine/src/spinqueue.rs: DataSpinQueue"]}
{"id": "C46", "title": "Queue construction accepts exactly the valid worker sets", "statement": "WorkerId::new accepts exactly 0..=15; DataSpinQueue::new fails iff an identity repeats; queues never hand out null pointers.", "quantifier": "all ids and id lists, both build profiles", "why_tests_cant": "all inputs", "anchors": ["trading-engine/src/spinqueue.rs: WorkerId::new", "trading-engine/src/spinqueue.rs: DataSpinQueue::new", "trading-engine/src/spinqueue.rs: Default for DataSpinQueue"]}
{"id": "C47", "title": "work_done affects only its own worker", "statement": "work_done by one identity clears that worker's pending flag and leaves every other worker's as it was.", "quantifier": "all status words and all pairs of identities", "why_tests_cant": "all bit patterns", "anchors": ["trading-engine/src/spinqueue.rs: work_done", "trading-engine/src/spinqueue.rs: WorkerId"]}
{"id": "C48", "title": "Only registered workers get items, and only published ones", "statement": "An identity the queue was not built with never gets an item; the initial datum is delivered like a published one.", "quantifier": "all schedules", "why_tests_cant": "history property", "anchors": ["trading-engine/src/spinqueue.rs: get", "trading-engine/src/spinqueue.rs: DataSpinQueue::new"]}
{"id": "C49", "title": "The queue is safe under any use of its safe API", "statement": "Because get_mut/get are safe functions, no use of them (shared identities, writes after notification, two producers) can race.", "quantifier": "all call histories", "why_tests_cant": "schedule property; the unsafe dereference is in client code", "anchors": ["trading-engine/src/spinqueue.rs: DataSpinQueue"]}
{"id": "C50", "title": "Counters hand out every number once", "statement": "n calls of next by any threads return start, start+1, ... each exactly once (errors beyond the end); unbounded counters never repeat within 2^64 calls; VirtualOrderId::next_id counts up by one.", "quantifier": "all starts, ends, numbers of calls, thread assignments", "why_tests_cant": "concurrent history", "anchors": ["trading-engine/src/utils/counter.rs: CounterUsize::next", "trading-engine/src/utils/counter.rs: CounterU64::next", "trading-engine/src/utils/counter.rs: UnboundedCounterUsize::next", "trading-engine/src/types/base.rs: VirtualOrderId::next_id"]}
{"id": "C51", "title": "An exhausted counter stays exhausted", "statement": "Once next has returned Err it never returns Ok again.", "quantifier": "all numbers of calls", "why_tests_cant": "2^64 calls", "anchors": ["trading-engine/src/utils/counter.rs: CounterU64::next"]}
{"id": "C52", "title": "Local date and time text is correct", "statement": "For every nanosecond timestamp and UTC offset of up to a day, convert_unix_nano_to_date_and_time prints the Gregorian date and time of the shifted instant with fixed-width fields.", "quantifier": "all 2^64 timestamps, offsets -24..24, both build profiles", "why_tests_cant": "2^64 timestamps over 584 years", "anchors": ["trading-engine/src/utils/timer.rs: convert_unix_nano_to_date_and_time", "trading-engine/src/utils/timer.rs: days_to_date", "trading-engine/src/utils/timer.rs: is_leap_year", "trading-engine/src/utils/timer.rs: days_in_month"]}
{"id": "C53", "title": "Local time text is correct for every offset and instant", "statement": "The same for instants whose local time is before 1970 and for offsets beyond a day.", "quantifier": "all i32 offsets", "why_tests_cant": "boundary of the type", "anchors": ["trading-engine/src/utils/timer.rs: convert_unix_nano_to_date_and_time"]}
{"id": "C54", "title": "Clock components of a timestamp", "statement": "time_components_from_unix_nano returns hour, minute, second and millisecond of the UTC day, in range.", "quantifier": "all 2^64 timestamps", "why_tests_cant": "2^64 timestamps", "anchors": ["trading-engine/src/utils/timer.rs: time_components_from_unix_nano"]}
{"id": "C55", "title": "Timestamp differences are exact", "statement": "diff_in_* return the exact signed difference in the unit before conversion to floating point.", "quantifier": "all pairs of timestamps, all units", "why_tests_cant": "2^128 pairs", "anchors": ["trading-engine/src/types/timestamp.rs: diff_in_nanos", "trading-engine/src/types/timestamp.rs: diff_in_days", "trading-engine/src/types/timestamp.rs: div_rem"]}
{"id": "C56", "title": "Average trade price is the volume-weighted mean", "statement": "average_trade_price divides the traded value by the traded volume, so it lies between the lowest and highest price.", "quantifier": "all trade histories", "why_tests_cant": "all histories", "anchors": ["trading-engine/src/types/base.rs: TradeHistory::average_trade_price"]}
{"id": "C57", "title": "Interned instrument ids are equal iff the instruments are", "statement": "Over any history of InstId::new, deserialize and default by any threads: no call panics, get_id returns what was asked for and never changes, two ids compare equal iff symbol and venue are equal, and memory is leaked once per distinct instrument.", "quantifier": "all histories of calls, all symbols and venues", "why_tests_cant": "process-wide history property", "anchors": ["trading-engine/src/types/id/mod.rs: InstId::new", "trading-engine/src/types/id/mod.rs: Deserialize for InstId", "trading-engine/src/types/id/mod.rs: Default for InstId", "trading-engine/src/types/id/mod.rs: PartialEq for InstId"]}
{"id": "C58", "title": "ISIN codes are twelve visible ASCII characters", "statement": "IsinCode::new accepts exactly twelve ASCII bytes without blank or tab, keeps them, compares equal to exactly that text; every code's as_str is valid UTF-8; currency codes are valid and distinct.", "quantifier": "all byte strings", "why_tests_cant": "256^n inputs", "anchors": ["trading-engine/src/types/id/isin_code.rs: IsinCode", "trading-engine/src/utils/checkers.rs: is_ascii", "trading-engine/src/types/enums.rs: Currency::as_isin_code"]}
{"id": "C59", "title": "A ticker is the text it was made from", "statement": "Ticker::new accepts texts of at most 32 bytes, as_str returns the text, tickers are equal iff the texts are.", "quantifier": "all byte strings", "why_tests_cant": "256^n inputs", "anchors": ["trading-engine/src/types/id/ticker.rs: Ticker"]}
{"id": "C60", "title": "After shutdown the log is complete", "statement": "Once the logging thread has ended after Close, the selected files hold the text of every message sent before Close exactly once, in sending order, one segment per selected file; and Close does end the thread.", "quantifier": "all message sequences of all threads, all interleavings with the logging thread, all clock readings, any buffer boundaries", "why_tests_cant": "schedule, timing and size dependent", "anchors": ["trading-engine/src/logger.rs: LOG_SENDER", "trading-engine/src/logger.rs: Logger::finalize", "trading-engine/src/logger.rs: LogMessage"]}
{"id": "C61", "title": "A crash leaves a prefix of the log", "statement": "At any byte at which the process dies the files hold a prefix of the log text, laid out over the first selected files in order.", "quantifier": "all histories, all crash points, also failing opens and clock steps", "why_tests_cant": "crash points", "anchors": ["trading-engine/src/logger.rs: LOG_SENDER"]}
{"id": "C62", "title": "A flushing log call reaches the file", "statement": "When a flushing_log_* message has been handled its text is in the file.", "quantifier": "all texts", "why_tests_cant": "crash points", "anchors": ["trading-engine/src/logger.rs: flushing_log_fn_json!"]}
{"id": "C63", "title": "The logger's memory is bounded", "statement": "The text queued in memory stays within LOG_MESSAGE_BUFFER_SIZE characters.", "quantifier": "all histories", "why_tests_cant": "unbounded histories", "anchors": ["trading-engine/src/logger.rs: LOG_MESSAGE_BUFFER_SIZE"]}
{"id": "C64", "title": "The level filter", "statement": "A log call sends its message iff its level is at most the maximum, and changes nothing otherwise; the stored maximum always decodes.", "quantifier": "all levels, all system states", "why_tests_cant": "all states", "anchors": ["trading-engine/src/logger.rs: log_fn_json!", "trading-engine/src/logger.rs: LogLevel"]}
{"id": "C65", "title": "Logging never disturbs the caller", "statement": "A log call never panics, and an accepted message is written.", "quantifier": "all histories, including calls during and after shutdown", "why_tests_cant": "shutdown races", "anchors": ["trading-engine/src/logger.rs: log_fn_json!", "trading-engine/src/logger.rs: LoggerGuard"]}
{"id": "C66", "title": "The logger survives clock adjustments", "statement": "No sequence of clock readings stops the logging thread.", "quantifier": "all clock readings, both build profiles", "why_tests_cant": "system clock steps", "anchors": ["trading-engine/src/logger.rs: LOG_SENDER"]}
{"id": "C67", "title": "The console shows the log", "statement": "With console reporting on, the printed text is the log text.", "quantifier": "all histories", "why_tests_cant": "history property", "anchors": ["trading-engine/src/logger.rs: CONSOLE_REPORT"]}
{"id": "C68", "title": "Normalised prices keep the order and value of the book prices", "statement": "normalized_f64_from_i64 turns a book price into the decimal number it stands for up to relative error 2^-51, larger book prices never become smaller floats, and distinct prices stay distinct (equal prices equal).", "quantifier": "all i64 prices, all converters with at most 18 (15 for strictness) decimals, both build profiles", "why_tests_cant": "2^64 prices times rounding", "anchors": ["trading-engine/src/utils/numeric_converter.rs: normalized_f64_from_i64", "trading-engine/src/utils/numeric_converter.rs: to_f64_from_i64"]}
{"id": "C69", "title": "The order flow imbalance is the book formula", "statement": "After any feed of snapshots, ofi between two features is exactly the order flow imbalance of the two latest snapshots' integer levels.", "quantifier": "all feeds of quote and trade-quote snapshots with up to 15-digit prices and quantities, all levels", "why_tests_cant": "rounding and unbounded feeds", "anchors": ["trading-engine/src/feature/tick.rs: SnapshotQuotes::ofi", "trading-engine/src/feature/tick.rs: bid_ofi", "trading-engine/src/feature/tick.rs: ask_ofi", "trading-engine/src/feature/tick.rs: update_quote_snapshot", "trading-engine/src/feature/tick.rs: update_trade_quote_snapshot"]}
{"id": "C70", "title": "A level argument never panics", "statement": "ofi with a level that is zero or beyond what either feature holds is an error, not a panic, for every feature value the API can make.", "quantifier": "all features, all levels", "why_tests_cant": "all states", "anchors": ["trading-engine/src/feature/tick.rs: bid_ofi", "trading-engine/src/feature/tick.rs: ask_ofi", "trading-engine/src/feature/tick.rs: with_capacity"]}
{"id": "C71", "title": "A feature shows the latest snapshot", "statement": "After any feed the feature holds, level by level, the converted prices and quantities, timestamp, system time and converter of the latest snapshot that had enough levels.", "quantifier": "all feeds", "why_tests_cant": "unbounded feeds", "anchors": ["trading-engine/src/feature/tick.rs: new_from_quote_sanpshot", "trading-engine/src/feature/tick.rs: update_quote_snapshot", "trading-engine/src/feature/tick.rs: update_trade_quote_snapshot"]}
{"id": "C72", "title": "Best and mid price", "statement": "best_ask_price / best_bid_price are the prices of the first level with a quantity; the mid price exists iff both do and lies between them.", "quantifier": "all feeds", "why_tests_cant": "rounding and unbounded feeds", "anchors": ["trading-engine/src/feature/tick.rs: best_ask_price", "trading-engine/src/feature/tick.rs: best_bid_price", "trading-engine/src/feature/tick.rs: mid_price"]}
{"id": "C73", "title": "The vwap is the volume weighted average price", "statement": "vwap returns the volume weighted average price of all levels shown, up to rounding, whenever there is any volume.", "quantifier": "all feeds", "why_tests_cant": "accumulated rounding", "anchors": ["trading-engine/src/feature/tick.rs: vwap"]}
{"id": "C74", "title": "The logarithmic imbalance is finite", "statement": "ln_ofi returns a finite number for every pair of snapshots.", "quantifier": "all feeds", "why_tests_cant": "boundary values of floats", "anchors": ["trading-engine/src/feature/tick.rs: ln_ofi", "trading-engine/src/feature/tick.rs: bid_ln_ofi", "trading-engine/src/feature/tick.rs: ask_ln_ofi"]}
{"id": "C75", "title": "A moving average stays within its observations", "statement": "After any updates the EWMA lies between the smallest and the largest value seen, up to relative error 2^-50 per update.", "quantifier": "all update histories of any length with time stamps from creation on, all decay factors in [0,1]", "why_tests_cant": "accumulated rounding over unbounded histories", "anchors": ["trading-engine/src/feature/weighted_valuation.rs: EWMA::update", "trading-engine/src/feature/weight.rs: TimeSeriesWeight::apply"]}
{"id": "C76", "title": "A moving average decays by the time since the last update", "statement": "Each EWMA / EWMS update multiplies the old value by weight^(time since the previous update), for any time stamps.", "quantifier": "all update histories", "why_tests_cant": "history property", "anchors": ["trading-engine/src/feature/weighted_valuation.rs: EWMA::update", "trading-engine/src/feature/weighted_valuation.rs: EWMS::update"]}
{"id": "C77", "title": "Leap years and month ends are Gregorian", "statement": "is_leap_year is the Gregorian rule and last_day_of_month is the last day of that month.", "quantifier": "all years -9999..9999, all months", "why_tests_cant": "all years", "anchors": ["quantlib/src/time/calendar_trait.rs: is_leap_year", "quantlib/src/time/calendar_trait.rs: last_day_of_month"]}
{"id": "C78", "title": "Business-day status belongs to the point in time", "statement": "Two OffsetDateTimes of the same instant get the same answer from is_business_day and is_weekend.", "quantifier": "all calendars, all dates and offsets", "why_tests_cant": "all instants and offsets", "anchors": ["quantlib/src/time/calendar_trait.rs: is_business_day", "quantlib/src/time/calendar_trait.rs: _is_holiday", "quantlib/src/time/calendars/nullcalendar.rs: is_weekend"]}
{"id": "C79", "title": "Following finds the first business day", "statement": "adjust with Following returns the first business day on or after the date, at the same time of day, within a number of days that depends only on the holidays added by hand; at the end of the representable dates it may panic but never answers wrongly.", "quantifier": "all calendars (joint ones, edited ones), all dates", "why_tests_cant": "every date of 20000 years under every edit history", "anchors": ["quantlib/src/time/calendar_trait.rs: adjust", "quantlib/src/time/calendar_trait.rs: adjust_following"]}
{"id": "C80", "title": "Preceding finds the last business day", "statement": "adjust with Preceding returns the last business day on or before the date, under the same terms.", "quantifier": "all calendars, all dates", "why_tests_cant": "every date, every edit history", "anchors": ["quantlib/src/time/calendar_trait.rs: adjust", "quantlib/src/time/calendar_trait.rs: adjust_preceding"]}
{"id": "C81", "title": "Modified conventions stay in the month", "statement": "Modified Following (Preceding) returns the Following (Preceding) day if it lies in the same month and the other one otherwise; the result is a business day, and in the month whenever the month has a business day (with no holidays added by hand every month has).", "quantifier": "all calendars, all dates", "why_tests_cant": "every date, every edit history", "anchors": ["quantlib/src/time/calendar_trait.rs: adjust_modified_following", "quantlib/src/time/calendar_trait.rs: adjust_modified_preceding"]}
{"id": "C82", "title": "Adjusting is idempotent and monotone", "statement": "A business day is not moved; adjusting an adjusted date changes nothing; a later date is never adjusted to an earlier one than an earlier date.", "quantifier": "all calendars, conventions, pairs of dates", "why_tests_cant": "all pairs of dates", "anchors": ["quantlib/src/time/calendar_trait.rs: adjust"]}
{"id": "C83", "title": "Business days are never far away", "statement": "Among any 7 consecutive days (14 for a joint calendar) one is a business day if no holidays were added by hand; each added holiday lengthens the bound by as much.", "quantifier": "all calendars and dates", "why_tests_cant": "every date of 20000 years", "anchors": ["quantlib/src/time/calendar_trait.rs: is_business_day", "quantlib/src/time/calendars/southkorea.rs: is_holiday", "quantlib/src/time/calendars/unitedstates.rs: is_holiday"]}
{"id": "C84", "title": "Adding and removing holidays", "statement": "After any history of add_holidays and remove_holidays a day's status is what the last call about that day said (weekends aside).", "quantifier": "all histories of calls", "why_tests_cant": "unbounded histories", "anchors": ["quantlib/src/time/calendar_trait.rs: add_holidays", "quantlib/src/time/calendar_trait.rs: remove_holidays", "quantlib/src/time/calendar_trait.rs: _is_holiday"]}
{"id": "C85", "title": "A joint calendar is closed iff one of its calendars is", "statement": "JointCalendar is closed exactly when one of its calendars is; order and repetition do not matter; its own is_business_day and the trait's agree; it cannot be made empty.", "quantifier": "all lists of calendars, all dates", "why_tests_cant": "all combinations", "anchors": ["quantlib/src/time/jointcalendar.rs: JointCalendar::new", "quantlib/src/time/jointcalendar.rs: is_holiday", "quantlib/src/time/jointcalendar.rs: is_business_day"]}
{"id": "C86", "title": "US settlement and Federal Reserve holidays", "statement": "UnitedStates(Settlement) and (FederalReserve) are closed exactly on weekends and on the published holidays (fixed days with their observance rules, n-th Mondays and Thursdays, with their years of introduction).", "quantifier": "all dates", "why_tests_cant": "every date of 20000 years", "anchors": ["quantlib/src/time/calendars/unitedstates.rs: is_holiday_for_settlement", "quantlib/src/time/calendars/unitedstates.rs: is_holiday_for_federal_reserve", "quantlib/src/time/calendars/unitedstates.rs: is_washington_birthday", "quantlib/src/time/calendars/unitedstates.rs: is_memorial_day", "quantlib/src/time/calendars/unitedstates.rs: is_labor_day", "quantlib/src/time/calendars/unitedstates.rs: is_columbus_day", "quantlib/src/time/calendars/unitedstates.rs: is_veterans_day", "quantlib/src/time/calendars/unitedstates.rs: is_juneteenth"]}
{"id": "C87", "title": "NYSE, government bond and SOFR holidays", "statement": "UnitedStates(Nyse), (GovernmentBond) and (Sofr) are closed exactly on weekends, the published holidays including Good Friday, and the listed closings.", "quantifier": "all dates", "why_tests_cant": "every date; Easter by computation over all years", "anchors": ["quantlib/src/time/calendars/unitedstates.rs: is_holiday_for_nyse", "quantlib/src/time/calendars/unitedstates.rs: is_holiday_for_government_bond", "quantlib/src/time/calendars/unitedstates.rs: is_holiday_for_sofr", "quantlib/src/time/holiday.rs: good_friday"]}
{"id": "C88", "title": "The NYSE closes on election days", "statement": "UnitedStates(Nyse) is closed on election day (the Tuesday after the first Monday of November) of every year up to 1968 and of 1972, 1976 and 1980.", "quantifier": "all years", "why_tests_cant": "all years", "anchors": ["quantlib/src/time/calendars/unitedstates.rs: is_holiday_for_nyse"]}
{"id": "C89", "title": "South Korean holidays", "statement": "SouthKorea(Settlement) and (Krx) are closed exactly on weekends, fixed holidays, the listed temporary ones and the three days of Lunar New Year and of Chuseok and Buddha's birthday of every year (KRX also on the last weekday of the year); the lunar tables give one of each a year, whole lunar months apart.", "quantifier": "all dates", "why_tests_cant": "every date; three tables of 100-150 entries each", "anchors": ["quantlib/src/time/calendars/southkorea.rs: is_holiday", "quantlib/src/time/calendars/southkorea.rs: is_lunar_newyear", "quantlib/src/time/holiday.rs: "]}
{"id": "C90", "title": "display_holidays lists the holidays of an interval", "statement": "display_holidays prints, in increasing order, exactly the holidays among the start date and the same times of the following days up to the end (weekends only if asked).", "quantifier": "all calendars, all intervals", "why_tests_cant": "unbounded intervals", "anchors": ["quantlib/src/time/calendar_trait.rs: display_holidays"]}
{"id": "C91", "title": "Adjusting does not depend on the offset a date is written in", "statement": "Two OffsetDateTimes of the same instant are adjusted to the same instant, under every convention.", "quantifier": "all calendars with an offset of their own, all conventions, all offsets", "why_tests_cant": "all instants and offsets", "anchors": ["quantlib/src/time/calendar_trait.rs: adjust", "quantlib/src/time/calendar_trait.rs: adjust_modified_following"]}
{"id": "C92", "title": "Actual/365, /360 and /364 year fractions", "statement": "year_fraction under these conventions is the f32 nearest to full days between the dates over 365 (360, 364); it is an error iff the start is after the end (or the convention is Dummy); it grows with the end and shrinks with the start.", "quantifier": "all calendars, all pairs of dates", "why_tests_cant": "all pairs of dates, rounding", "anchors": ["quantlib/src/time/calendar_trait.rs: year_fraction", "quantlib/src/time/jointcalendar.rs: year_fraction"]}
{"id": "C93", "title": "30/360 year fractions are the published ones", "statement": "Thirty360 and StreetConvention count days by the published 30/360 rules, including the rules for the 31st.", "quantifier": "all pairs of dates", "why_tests_cant": "all pairs of dates", "anchors": ["quantlib/src/time/calendar_trait.rs: year_fraction"]}
{"id": "C94", "title": "Actual/Actual (ISDA) year fractions", "statement": "ActActIsda is, up to rounding, the sum over all calendar years of the days that fall into the year over the length of the year.", "quantifier": "all pairs of dates with the same offset, over any number of years", "why_tests_cant": "unbounded number of years, accumulated rounding", "anchors": ["quantlib/src/time/calendar_trait.rs: year_fraction"]}
{"id": "C95", "title": "Time differences", "statement": "get_time_difference is, up to rounding, the sum over all years of the time that falls into the year over its length: positive for a later date, additive, antisymmetric.", "quantifier": "all pairs and triples of instants with the same offset", "why_tests_cant": "all pairs of instants, accumulated rounding", "anchors": ["quantlib/src/time/calendar_trait.rs: get_time_difference"]}
{"id": "C96", "title": "Period strings are read as written", "statement": "A well-formed period string (numbers each followed by Y, M, W, D, h, min or sec) is read as exactly those numbers of those units; a number that does not fit is a panic; a malformed string is rejected.", "quantifier": "all strings: any number of units, numerals of any length", "why_tests_cant": "infinitely many strings, including overlong numerals and junk", "anchors": ["quantlib/src/utils/string_arithmetic.rs: add_period", "quantlib/src/utils/string_arithmetic.rs: sub_period"]}
{"id": "C97", "title": "Adding months and years", "statement": "Adding n months (12 n for n years) gives the same day of the month n months later, or the last day of that month if it is shorter; it panics exactly if the year leaves -9999..9999; adding more months never gives an earlier date.", "quantifier": "all dates, times and offsets, all n below 2^31", "why_tests_cant": "all dates, all month ends, all amounts", "anchors": ["quantlib/src/utils/string_arithmetic.rs: add_period", "quantlib/src/utils/string_arithmetic.rs: from_i32_to_month", "quantlib/src/utils/string_arithmetic.rs: from_month_to_i32"]}
{"id": "C98", "title": "Adding and subtracting weeks, days, hours, minutes, seconds", "statement": "add_period and sub_period with such a unit move the date-time by exactly that length, panic exactly if the date leaves the range, and undo each other.", "quantifier": "all date-times, all n", "why_tests_cant": "all date-times and amounts", "anchors": ["quantlib/src/utils/string_arithmetic.rs: add_period", "quantlib/src/utils/string_arithmetic.rs: sub_period"]}
{"id": "C99", "title": "Compound periods", "statement": "A period of several units is applied unit by unit from left to right.", "quantifier": "all well-formed strings of any number of units, all date-times", "why_tests_cant": "infinitely many combinations of units", "anchors": ["quantlib/src/utils/string_arithmetic.rs: add_period"]}
{"id": "C100", "title": "Subtracting months and years", "statement": "Subtracting n months gives the same day n months earlier (or the last day of that month), and undoes adding them when the day is at most 28.", "quantifier": "all dates, all n below 2^31", "why_tests_cant": "the result is wrong only beyond a distance that depends on the month", "anchors": ["quantlib/src/utils/string_arithmetic.rs: sub_period"]}
{"id": "C101", "title": "Periods on dates agree with periods on date-times", "statement": "add_period_date and sub_period_date give the date of what add_period and sub_period give for a date-time on that date.", "quantifier": "all dates, all period strings of years, months, weeks and days", "why_tests_cant": "all dates and strings", "anchors": ["quantlib/src/utils/string_arithmetic.rs: add_period_date", "quantlib/src/utils/string_arithmetic.rs: sub_period_date"]}
{"id": "C102", "title": "Period strings as fractions of a year", "statement": "from_period_string_to_float is the sum of the numbers times their units' lengths in years, within a relative error of (1 + 2^-24)^(units+3) - 1; it is an error exactly if nowhere in the string a digit is followed by a unit.", "quantifier": "all strings; all well-formed strings of up to 8388000 units and 2^70 years", "why_tests_cant": "all numerals, accumulated f32 rounding", "anchors": ["quantlib/src/utils/string_arithmetic.rs: from_period_string_to_float"]}
{"id": "C103", "title": "Multiples of a payment frequency", "statement": "The string for n steps of a frequency moves a date by n times the frequency's step; the dates are unique, increasing in n, and as many steps as there are payments in a year make a year.", "quantifier": "all frequencies, dates, n up to 3*10^8", "why_tests_cant": "all dates and multiples", "anchors": ["quantlib/src/time/conventions.rs: PaymentFrequency::to_string_with_multiple", "quantlib/src/time/conventions.rs: PaymentFrequency::as_str", "quantlib/src/time/conventions.rs: PaymentFrequency::as_real", "quantlib/src/utils/string_arithmetic.rs: add_period"]}
{"id": "C104", "title": "Forward schedules", "statement": "build_schedule generating forward returns the coupons between the successive steps from the effective date, adjusted by the convention: they join without gap or overlap, start on the effective date and end at maturity, fix on business days fixing_gap days before the start, pay payment_gap days after the end.", "quantifier": "all effective dates, maturities, calendars, conventions, frequencies, gaps", "why_tests_cant": "schedules of any length over any calendar, including stubs and month ends", "anchors": ["quantlib/src/instruments/schedule.rs: build_schedule"]}
{"id": "C105", "title": "When build_schedule fails", "statement": "build_schedule refuses negative gaps and the Dummy convention; otherwise, generating forward away from the ends of the calendar, it always answers, and refuses exactly if some adjusted coupon would be empty or reversed: never for Unadjusted, and for month frequencies under the modified conventions never unless a step falls before maturity in the maturity's month.", "quantifier": "all inputs away from the ends of the calendar", "why_tests_cant": "termination and panics over all inputs", "anchors": ["quantlib/src/instruments/schedule.rs: build_schedule"]}
{"id": "C106", "title": "Backward schedules", "statement": "What build_schedule returns generating backward is the schedule on the dates a whole number of steps before maturity, the first coupon starting on the effective date.", "quantifier": "all inputs away from the ends of the calendar", "why_tests_cant": "schedules of any length over any calendar", "anchors": ["quantlib/src/instruments/schedule.rs: build_schedule", "quantlib/src/utils/string_arithmetic.rs: sub_period"]}
{"id": "C107", "title": "Backward schedules of any length exist", "statement": "Generating backward gives a schedule whenever the effective date precedes maturity and no coupon is empty.", "quantifier": "all effective dates, maturities, calendars, conventions and frequencies in months", "why_tests_cant": "fails only for schedules longer than one to two years", "anchors": ["quantlib/src/instruments/schedule.rs: build_schedule", "quantlib/src/utils/string_arithmetic.rs: sub_period"]}
{"id": "C108", "title": "Binary search finds the documented index", "statement": "binary_search_index of a non-empty array always answers with an index in bounds; on a sorted array it is 0 below the first element, the last index from the last element on, and otherwise the i with v[i] <= x < v[i+1].", "quantifier": "arrays of any length over any ordered type (f32 with NaN included), all searched values", "why_tests_cant": "arrays of any length; termination and bounds over all of them", "anchors": ["quantlib/src/utils/find_index.rs: binary_search_index", "quantlib/src/utils/find_index_ndarray.rs: binary_search_index_ndarray"]}
{"id": "C109", "title": "Searching for many values agrees with searching for each", "statement": "vectorized_search_index of sorted values in a sorted array gives the list of what binary_search_index gives for each; it always answers for a non-empty array.", "quantifier": "arrays and lists of values of any length over any ordered type", "why_tests_cant": "the scan carries its position from value to value; correctness is an invariant over the whole list", "anchors": ["quantlib/src/utils/find_index.rs: vectorized_search_index_for_sorted_vector", "quantlib/src/utils/find_index_ndarray.rs: vectorized_search_index_for_sorted_ndarray"]}
{"id": "C110", "title": "Stepwise interpolators are built exactly from sorted knots", "statement": "StepwiseInterpolator1D::new accepts exactly a non-empty sorted domain with as many values; anything else is an error, never a panic.", "quantifier": "all domains and values of any length, over any ordered type", "why_tests_cant": "arrays of any length", "anchors": ["quantlib/src/math/interpolators/stepwise_interpolatior.rs: StepwiseInterpolator1D::new", "quantlib/src/util.rs: is_ndarray_sorted"]}
{"id": "C111", "title": "Stepwise interpolation is the step function of its knots", "statement": "Between the first and the last knot the value is that of the last knot not after x; outside it is the given extrapolation value, or the nearest knot's if none is given, or an error if extrapolation is not allowed. Every constructed interpolator answers every x.", "quantifier": "all knots, values and x, over any ordered type", "why_tests_cant": "arrays of any length, all x", "anchors": ["quantlib/src/math/interpolators/stepwise_interpolatior.rs: StepwiseInterpolator1D::interpolate", "quantlib/src/math/interpolators/stepwise_interpolatior.rs: ConstantInterpolator1D"]}
{"id": "C112", "title": "Vectorized stepwise interpolation agrees with interpolating each point", "statement": "The vectorized stepwise interpolation of sorted points gives the list of the single results, or an error if one of them is an error.", "quantifier": "all knots, values and sorted points", "why_tests_cant": "the two branches differ by the number of points", "anchors": ["quantlib/src/math/interpolators/stepwise_interpolatior.rs: vectorized_interpolate_for_sorted_ndarray"]}
{"id": "C113", "title": "Linear interpolators: construction and answers", "statement": "LinearInterpolator1D::new accepts exactly a sorted non-empty domain with as many values, is an error otherwise and never panics; every constructed interpolator answers every x without panicking.", "quantifier": "all knots and values, all x including NaN", "why_tests_cant": "arrays of any length; NaN and edge positions", "anchors": ["quantlib/src/math/interpolators/linear_interpolator.rs: LinearInterpolator1D::new", "quantlib/src/math/interpolators/linear_interpolator.rs: interpolate"]}
{"id": "C114", "title": "Linear interpolation is close to the straight line", "statement": "Between two knots the result is finite and differs from the exact value of the straight line through them by at most 12 * 2^-24 * M + 2^-149 (1 + b - a), M bounding the values.", "quantifier": "all finite strictly sorted knots, finite values of magnitude up to 2^100 with slopes up to 2^100, all x inside", "why_tests_cant": "a rounding error bound over all floats", "anchors": ["quantlib/src/math/interpolators/linear_interpolator.rs: interpolate"]}
{"id": "C115", "title": "Linear interpolation reproduces its knots", "statement": "At a knot the result is exactly the knot's value.", "quantifier": "all finite strictly sorted knots with finite values, every knot", "why_tests_cant": "all floats", "anchors": ["quantlib/src/math/interpolators/linear_interpolator.rs: interpolate"]}
{"id": "C116", "title": "Vectorized linear interpolation agrees with interpolating each point", "statement": "The vectorized linear interpolation of sorted points gives the list of the single results, or an error if one of them is an error.", "quantifier": "all strictly sorted knots (two or more), all sorted points without NaN", "why_tests_cant": "arrays of any length", "anchors": ["quantlib/src/math/interpolators/linear_interpolator.rs: vectorized_interpolate_for_sorted_ndarray"]}
{"id": "C117", "title": "Linear interpolation outside the knots", "statement": "Before the first and from the last knot on: flat gives the edge value, linear the continuation of the edge segment, anything else is an error.", "quantifier": "all sorted knots (two or more), all x outside", "why_tests_cant": "all floats", "anchors": ["quantlib/src/math/interpolators/linear_interpolator.rs: interpolate", "quantlib/src/math/interpolator.rs: ExtraPolationType"]}
{"id": "C118", "title": "Bilinear interpolators: construction and answers", "statement": "Both constructors accept exactly matching shapes with sorted knots, are an error otherwise and never panic; a constructed table answers every point without panicking.", "quantifier": "all tables of any size, all points including NaN", "why_tests_cant": "tables of any size; NaN and edge positions", "anchors": ["quantlib/src/math/interpolators/bilinear_interpolator.rs: BilinearInterpolator::new", "quantlib/src/math/interpolators/bilinear_interpolator.rs: new_from_rectangle_data", "quantlib/src/math/interpolators/bilinear_interpolator.rs: interpolate"]}
{"id": "C119", "title": "Bilinear interpolation is close to the bilinear form", "statement": "Inside the table the result is finite and differs from the exact bilinear form of the cell by at most 25 * 2^-24 * M + 2^-148 (1 + b - a) + 2^-149 (1 + 1/(t2 - t1)).", "quantifier": "all finite tables of any size with values up to 2^50, all points inside", "why_tests_cant": "an error bound through two stages of rounding over all floats", "anchors": ["quantlib/src/math/interpolators/bilinear_interpolator.rs: interpolate"]}
{"id": "C120", "title": "Bilinear interpolation at the t knots and beyond the edges", "statement": "At a t knot the result is that of the knot's own x interpolator; beyond the edges flat gives the edge interpolator's result, linear the continuation from the two outermost, anything else is an error; an error of an x interpolator that is used is an error.", "quantifier": "all t knots, x interpolators of any kind, all points", "why_tests_cant": "all floats, tables of any size", "anchors": ["quantlib/src/math/interpolators/bilinear_interpolator.rs: interpolate"]}
{"id": "C121", "title": "Spreading a value touches only the neighbours of its location", "statement": "distribute_value_on_vector adds the whole value to the end entry if the location is at or beyond the end, otherwise the weighted shares to the two neighbours, and changes nothing else; different lengths are an error and change nothing; it never panics.", "quantifier": "vectors and grids of any length, all floats", "why_tests_cant": "vectors of any length; in-place updates", "anchors": ["quantlib/src/utils/distribute_value.rs: distribute_value_on_vector"]}
{"id": "C122", "title": "Spreading a value keeps the total", "statement": "The two shares are within 8 * 2^-24 |value| + 2^-149 (1 + |value|) of value * (b - x)/(b - a) and value * (x - a)/(b - a); the vector's total grows by the value up to 2^-24 (2B + 8 |value|) + 2^-147, B bounding the entries, and the entries stay finite.", "quantifier": "all finite strictly sorted grids, entries and values up to 2^100, all finite locations", "why_tests_cant": "a rounding error bound over all floats and vectors of any length", "anchors": ["quantlib/src/utils/distribute_value.rs: distribute_value_on_vector"]}
{"id": "C123", "title": "Dates as yyyymmdd integers keep the order of days", "statement": "to_yyyymmdd_int of a date is year * 10000 + month * 100 + day; it orders and distinguishes exactly as the local calendar days do. min_offsetdatetime is the earlier point in time, the second if equal.", "quantifier": "all dates of all years, all times and offsets", "why_tests_cant": "all pairs of dates", "anchors": ["quantlib/src/util.rs: to_yyyymmdd_int", "quantlib/src/util.rs: min_offsetdatetime"]}
{"id": "C124", "title": "The deduction ratio is the product over the dividends to come", "statement": "For dates on increasing days the ratio at T is the product of 1 - amount/spot over the dividends from the evaluation date on up to T's day, multiplied in order, 1 if there is none; days out of order are an error.", "quantifier": "dividend lists of any length, all evaluation dates, all T", "why_tests_cant": "lists of any length, all dates; a dropping loop with two indices and an interpolation search lie between", "anchors": ["quantlib/src/parameters/discrete_ratio_dividend.rs: DiscreteRatioDividend::new", "quantlib/src/parameters/discrete_ratio_dividend.rs: get_deduction_ratio", "quantlib/src/parameters/discrete_ratio_dividend.rs: get_vectorized_deduction_ratio_for_sorted_datetime", "quantlib/src/parameters/market_price.rs: get_dividend_deduction_ratio"]}
{"id": "C125", "title": "A dividend object outlives its dividends", "statement": "When all ex-dividend dates are before the evaluation date, construction and update succeed and the ratio is 1; moving the evaluation date never panics for this. The dropping loop always ends.", "quantifier": "all dividend lists and evaluation dates", "why_tests_cant": "all lists and dates", "anchors": ["quantlib/src/parameters/discrete_ratio_dividend.rs: DiscreteRatioDividend::new", "quantlib/src/parameters/discrete_ratio_dividend.rs: update_evaluation_date", "quantlib/src/evaluation_date.rs: set_date"]}
{"id": "C126", "title": "Bumping dividends changes exactly the amounts in the interval", "statement": "bump_date_interval adds the bump to the amounts on days in (date1, date2] and leaves the others at their value; yields and ratios follow; an empty interval is an error that changes nothing; after any history of bumps and dates, a new evaluation date gives the ratio of the yields then listed; ratios do not change with a bump of 0.", "quantifier": "all dividends, intervals, bumps and histories of calls", "why_tests_cant": "histories of any length; all floats", "anchors": ["quantlib/src/parameters/discrete_ratio_dividend.rs: bump_date_interval", "quantlib/src/parameters/discrete_ratio_dividend.rs: update_evaluation_date", "quantlib/src/parameters/discrete_ratio_dividend.rs: get_dividend_ratio"]}
{"id": "C127", "title": "A market price is rolled over exactly the dividends passed", "statement": "Moving the evaluation date forward multiplies the price by 1 - yield for the dividends after the market date up to the new date, moving back divides by it; told the same date again nothing changes; a price without dividend never changes.", "quantifier": "all prices, dividend lists and dates", "why_tests_cant": "lists of any length, all dates", "anchors": ["quantlib/src/parameters/market_price.rs: update_evaluation_date"]}
{"id": "C128", "title": "A price that goes back and forth in time comes back", "statement": "After any sequence of evaluation dates the price is the start price times the factors of the dividends between the first and the last date, within 2^-23 relatively for every dividend passed on the way; back at the start date it is the start price within that.", "quantifier": "all prices from 2^-50 to 2^50, yields in [0,1) that leave at least 2^-50, sequences of dates of any length (up to 2^22 dividends passed)", "why_tests_cant": "an error bound over all floats and histories of any length", "anchors": ["quantlib/src/parameters/market_price.rs: update_evaluation_date"]}
{"id": "C129", "title": "Setting the evaluation date reaches every observer exactly once", "statement": "After set_date, += or -= every observing price with a dividend has been rolled to the date once, even if it was added twice, every observing dividend has the ratios of that date, all other objects are unchanged; it succeeds while every observing dividend has a date to come; after any sequence of dates each price has followed all of them.", "quantifier": "any number of prices, dividends and observers, histories of any length", "why_tests_cant": "histories and numbers of objects of any size", "anchors": ["quantlib/src/evaluation_date.rs: set_date", "quantlib/src/evaluation_date.rs: notify_observers", "quantlib/src/evaluation_date.rs: AddAssign", "quantlib/src/evaluation_date.rs: SubAssign", "quantlib/src/evaluation_date.rs: add_marketprice_observer", "quantlib/src/evaluation_date.rs: add_dividend_observer"]}
{"id": "C130", "title": "Price and deduction ratio count every dividend once", "statement": "The price at the evaluation date times the deduction ratio up to T does not depend on the evaluation date (up to 2^-22 relatively per dividend): every dividend is in one of the two.", "quantifier": "all dividend lists with yields in [0,1), all evaluation dates and T, all ways to get to the date", "why_tests_cant": "two objects updated by different code paths over histories of any length", "anchors": ["quantlib/src/parameters/market_price.rs: update_evaluation_date", "quantlib/src/parameters/discrete_ratio_dividend.rs: update_evaluation_date", "quantlib/src/parameters/discrete_ratio_dividend.rs: get_deduction_ratio"]}
{"id": "C131", "title": "Market data has a time for every value", "statement": "VectorData::new fails without dates and times, with another number of dates or times than values, and with dates but no market date; given dates, the times are the year fractions from the market date to each date, whatever times are passed; given only times it keeps them.", "quantifier": "all values, dates, times and market dates, lists of any length", "why_tests_cant": "lists of any length, all dates", "anchors": ["quantlib/src/data/vector_data.rs: VectorData::new"]}
{"id": "C132", "title": "A later day has a later time", "statement": "Of two dates a day or more apart, at most 1000 years after the market date, the later one has the year fraction greater by at least 1/2048, both finite; the market date itself has 0.", "quantifier": "all dates, times of day and offsets of years from -9999 to 9999", "why_tests_cant": "all pairs of dates against float rounding", "anchors": ["quantlib/src/time/calendar.rs: get_time_difference", "quantlib/src/data/vector_data.rs: VectorData::new"]}
{"id": "C133", "title": "A zero curve holds the rates it was given", "statement": "ZeroCurve::new fails for lists of different lengths, no value and times out of order; otherwise it caches strictly rising times of today, tomorrow, ..., 100 years on, and at each the rate on the line between the given points, flat outside, within 7/2^24.", "quantifier": "all evaluation dates, rates of any number (times and rates in a sane range)", "why_tests_cant": "all dates and rate lists of any length; month ends, leap years and rounding lie between", "anchors": ["quantlib/src/parameters/zero_curve.rs: ZeroCurve::new"]}
{"id": "C134", "title": "Today's discount factor is 1, at the cached dates exp(-rate * time)", "statement": "On any curve, after any history of bumps, D(0) and D(evaluation date) are exactly 1; on the cached dates D is exp(-rate * time) within (1 + t)/2^20 relatively.", "quantifier": "all curves reachable by construction and bumps, all evaluation dates, any exp good to 2^-22", "why_tests_cant": "histories of any length; error bound over all floats", "anchors": ["quantlib/src/parameters/zero_curve.rs: get_discount_factor", "quantlib/src/parameters/zero_curve.rs: get_discount_factor_at_date", "quantlib/src/parameters/zero_curve.rs: bump_time_interval"]}
{"id": "C135", "title": "Between the cached dates the discount factor is on the chord", "statement": "For every time from 0 to before the last cached one the factor is on the line between the neighbouring factors within (21+8t)/2^24; with rates between 0 and 10% it is between 2^-18 and 1.001.", "quantifier": "all reachable curves, all times in range", "why_tests_cant": "error bound over all floats", "anchors": ["quantlib/src/parameters/zero_curve.rs: get_discount_factor"]}
{"id": "C136", "title": "The curve covers exactly 0 to 100 years", "statement": "A time below 0 or after the last cached one is an error, never an extrapolation; every date up to 100 years, that one included, has a factor.", "quantifier": "all reachable curves and times", "why_tests_cant": "all curves and times", "anchors": ["quantlib/src/parameters/zero_curve.rs: get_discount_factor", "quantlib/src/parameters/zero_curve.rs: ZeroCurve::new"]}
{"id": "C137", "title": "A date in the past has no discount factor", "statement": "get_discount_factor_at_date for a day before the evaluation date is an error; for others it is the factor of the year fraction.", "quantifier": "all curves, evaluation dates and dates", "why_tests_cant": "all pairs of dates", "anchors": ["quantlib/src/parameters/zero_curve.rs: get_discount_factor_at_date"]}
{"id": "C138", "title": "Discount factors between times chain", "statement": "The factor from t1 to t2 is D(t2)/D(t1) correctly rounded, exactly 1 from a time to itself, an error for times out of order or NaN; from a to b times from b to c is from a to c within 4/2^24.", "quantifier": "all reachable curves, all times", "why_tests_cant": "error bound over all floats", "anchors": ["quantlib/src/parameters/zero_curve.rs: get_discount_factor_between_times"]}
{"id": "C139", "title": "Forward rates are the rates that give the discount factor", "statement": "The simple forward rate is (1/d - 1)/tau and the continuous one -ln d/tau, d the factor between; a flat curve gives its rate back; a rate over a short or empty interval is a number near the short rate; times out of order are an error.", "quantifier": "all reachable curves, times and dates, any exp and ln good to 2^-22", "why_tests_cant": "error bound over all floats, dates and curves", "anchors": ["quantlib/src/parameters/zero_curve.rs: get_forward_rate_between_times", "quantlib/src/parameters/zero_curve.rs: get_forward_rate_between_dates", "quantlib/src/parameters/zero_curve.rs: get_forward_rate_from_evaluation_date"]}
{"id": "C140", "title": "A rate bump moves exactly the rates of the interval", "statement": "bump_time_interval adds the bump to the rates of cached times in (t1, t2], keeps the others at their value and recomputes factors; an open end is unbounded; reversed ends are an error that changes nothing; bumping by dates is bumping by their times.", "quantifier": "all reachable curves, intervals and bumps", "why_tests_cant": "all floats and histories", "anchors": ["quantlib/src/parameters/zero_curve.rs: bump_time_interval", "quantlib/src/parameters/zero_curve.rs: bump_date_interval"]}
{"id": "C141", "title": "Many points at once are each point alone", "statement": "The vectorised discount factors for sorted times or dates and the vectorised short rates are, point by point, what the single calls give, an error if one of them is; the dummy curve discounts nothing.", "quantifier": "all reachable curves, sorted lists of any length", "why_tests_cant": "lists of any length", "anchors": ["quantlib/src/parameters/zero_curve.rs: get_vectorized_discount_factor_for_sorted_time", "quantlib/src/parameters/zero_curve.rs: get_vectorized_discount_factor_for_sorted_dates", "quantlib/src/parameters/zero_curve.rs: get_vectorized_short_rate_for_sorted_times", "quantlib/src/parameters/zero_curve.rs: dummy_curve"]}
{"id": "C142", "title": "A recorded closing price is found again", "statement": "A price recorded for a day is the one found for that day and changes no other; asked at a time, it is the price of the local day until the close, and that of the next business day after it; the ordered lists are all entries, by date, whatever order the map iterates in.", "quantifier": "all histories of recordings, all times, offsets and calendars", "why_tests_cant": "histories of any length and every iteration order of the hash map", "anchors": ["quantlib/src/parameters/past_price.rs: DailyClosePrice", "quantlib/src/data/daily_value_data.rs: DailyValueData::insert"]}
{"id": "C143", "title": "A bond has exactly one kind of rate", "statement": "Making a bond fails exactly unless one of fixed rate and rate index is given, and it keeps every argument; from conventions it has one row without amount per coupon of the schedule.", "quantifier": "all arguments, schedules of any length", "why_tests_cant": "all schedules", "anchors": ["quantlib/src/instruments/bond.rs: Bond::new", "quantlib/src/instruments/bond.rs: Bond::new_from_conventions"]}
{"id": "C144", "title": "A bond's cash flows are what its rows pay", "statement": "get_cashflows is, for each day from the pricing day on, the sum of what the rows due then pay (the row's amount, else rate times the fraction of the period, else the floating coupon), plus 1 at maturity unless stripped; a half-year period at rate r pays exactly r/2; a due row that fails makes it fail.", "quantifier": "all bonds, schedules of any length, pricing dates", "why_tests_cant": "schedules of any length, all dates", "anchors": ["quantlib/src/instruments/bond.rs: Bond::get_cashflows"]}
{"id": "C145", "title": "A floating coupon is its rate plus spread over the period", "statement": "A coupon fixed on or after the pricing date pays (forward rate over the tenor + spread) times the fraction; one fixed before pays the recorded rate instead, whatever the curve; without a recorded rate it still pays the rate of its period.", "quantifier": "all coupons, curves, records and dates", "why_tests_cant": "error bound over all floats; all records", "anchors": ["quantlib/src/parameters/rate_index.rs: RateIndex::get_coupon_amount"]}
{"id": "C146", "title": "An overnight coupon compounds the rates of its sub-periods", "statement": "A coupon that has begun pays the product of 1 + (rate + spread) * fraction over its sub-periods less 1, recorded rates before the pricing date and forward rates after, within 7 units in the last place per period; one that has not begun pays the mean of the first and last forward rate; it always ends.", "quantifier": "coupons of any number of sub-periods (to 800000), all records and curves", "why_tests_cant": "loops of any length over dates; error over all floats", "anchors": ["quantlib/src/parameters/rate_index.rs: RateIndex::get_coupon_amount"]}
{"id": "C147", "title": "A bond is worth its discounted future cash flows", "statement": "npv is the sum over cash flows after the pricing day of amount times discount factor, over the factor of the pricing day, within (n+2)/2^23 of the size; two iteration orders of the map differ by rounding only; failing cash flows or factors fail it.", "quantifier": "all bonds, curves and iteration orders, any number of cash flows (to 2^20)", "why_tests_cant": "every iteration order of the hash map, error bound over all floats", "anchors": ["quantlib/src/pricing_engines/bond_pricer.rs: BondPricer::npv"]}
{"id": "C148", "title": "A bond's detailed result agrees with its value", "statement": "npv_result has the value npv gives, and every cash flow once under 0, 1, 2, ... with probability 1; its expected coupons are, day by day, exactly the cash flows.", "quantifier": "all bonds, curves and iteration orders", "why_tests_cant": "every iteration order of two hash maps", "anchors": ["quantlib/src/pricing_engines/bond_pricer.rs: BondPricer::npv_result", "quantlib/src/pricing_engines/npv_result.rs: NpvResult::get_expected_coupon_amount"]}
{"id": "C149", "title": "Pricing a bond does not panic", "statement": "Asking for the cash flows of a bond gives cash flows or an error.", "quantifier": "all bonds, curves and pricing dates", "why_tests_cant": "all bonds and states", "anchors": ["quantlib/src/instruments/bond.rs: Bond::get_cashflows"]}
{"id": "C150", "title": "The future's virtual bond costs the present value at its yield", "statement": "It is the notional times c/b + ... + c/b^n + 1/b^n with b = 1 + yield/frequency within (15n+6)/2^24; at a yield equal to the coupon it costs the notional; it does not rise when the yield does, beyond rounding.", "quantifier": "all maturities (to 65536 coupons), coupons and yields in a sane range, any powi good to 2 ulp a factor", "why_tests_cant": "sums of any length; error bound over all floats", "anchors": ["quantlib/src/instruments/ktbf.rs: KtbfVirtualBond::npv"]}
{"id": "C151", "title": "The yield price is that of the exchange's formula", "statement": "npv at a yield y is the sum over future cash flows of amount / (1+y/f)^periods from the next payment, over 1 + y/f times the fraction of the current period left, within (3n+29K+210)/2^24 of its size; a bond with nothing left is worth 0; the formula holds at every frequency.", "quantifier": "all bonds, iteration orders and yields in a sane range, any powf good to 2 ulp", "why_tests_cant": "every iteration order of the hash map, error bound over all floats", "anchors": ["quantlib/src/pricing_engines/krx_yield_pricer.rs: KrxYieldPricer::npv"]}
{"id": "C152", "title": "The future is priced at the average yield of its basket", "statement": "A future is made exactly if every bond of its basket is priced at its maturity; its price is that of the virtual bond at the average of the yields of the basket, discounted on the borrowing curve, within rounding; every future made can be priced.", "quantifier": "baskets of any size, all curves, any yield finder", "why_tests_cant": "baskets of any size, error bound over all floats", "anchors": ["quantlib/src/instruments/ktbf.rs: KTBF::new", "quantlib/src/pricing_engines/ktbf_pricer.rs: KtbfPricer::npv"]}
{"id": "C153", "title": "A currency is written and read back", "statement": "as_str of a currency is three capital letters, different for different currencies; reading it gives the currency back; any other text reads as NIL; two currencies are equal exactly if they are the same.", "quantifier": "all currencies, all texts", "why_tests_cant": "all strings", "anchors": ["quantlib/src/currency.rs: Currency"]}
{"id": "C154", "title": "A currency pair is written and read back", "statement": "The reciprocal of a pair has its currencies swapped, and is its own inverse; a pair is read back from how it is written, whatever follows, and two pairs are written differently; reading panics only on text that does not have six bytes or cuts a character; a serialized pair is read back.", "quantifier": "all pairs, all byte strings", "why_tests_cant": "all strings, of any length and encoding", "anchors": ["quantlib/src/currency.rs: FxCode"]}
{"id": "C155", "title": "Commas separate thousands", "statement": "Writing a number with commas keeps its sign, its digits and its decimals, and separates the digits left of the point in groups of three from the right; there is only one way to do so.", "quantifier": "all signs, digits of any length, decimals", "why_tests_cant": "digits of any length", "anchors": ["quantlib/src/utils/number_format.rs: write_number_with_commas"]}
{"id": "C156", "title": "A swap is classified by its terms", "statement": "Making a swap gives IRS, CRS, FxSwap, FxForward or FxSpot exactly if the initial and final amounts, rate, index, schedules, currencies and dates are those of that kind, never two kinds, and an error if they fit none; it keeps every argument, and the pair is floating to fixed currency; from conventions the same with the schedules built.", "quantifier": "all terms, schedules of any length", "why_tests_cant": "all combinations of terms, all dates, schedules of any length", "anchors": ["quantlib/src/instruments/plain_swap.rs: PlainSwap::new", "quantlib/src/instruments/plain_swap.rs: PlainSwap::new_from_conventions"]}
{"id": "C157", "title": "The fixed side pays what the terms say", "statement": "Its cash flows are, by point in time from the pricing day on: the initial amount received at the effective date, the final amount paid at maturity, and for every row minus rate times fraction times the initial amount (1 if there is none), added up; a failing fraction is an error.", "quantifier": "all swaps, schedules of any length, all pricing dates", "why_tests_cant": "schedules of any length, rounding for all floats", "anchors": ["quantlib/src/instruments/plain_swap.rs: PlainSwap::get_fixed_cashflows"]}
{"id": "C158", "title": "The floating side pays what the terms say", "statement": "Its cash flows are, by point in time from the pricing day on: the initial amount paid at the effective date, the final amount received at maturity, and for every row the floating coupon times the initial amount (1 if there is none), added up, whenever the swap is priced.", "quantifier": "all swaps, schedules of any length, curves, records, pricing dates", "why_tests_cant": "schedules of any length, rounding for all floats", "anchors": ["quantlib/src/instruments/plain_swap.rs: PlainSwap::get_floating_cashflows"]}
{"id": "C159", "title": "A swap is worth its discounted sides", "statement": "npv is the present value of the fixed side plus that of the floating side at the rate of exchange, each on its curve, within rounding; iteration orders of the maps matter for the rounding only; a forward is worth the discounted amount received at the rate of exchange less the discounted amount paid; an error of the cash flows or of a factor is the result.", "quantifier": "all swaps, curves, rates of exchange and iteration orders, up to 2^20 flows", "why_tests_cant": "every iteration order of hash maps, error bound over all floats", "anchors": ["quantlib/src/pricing_engines/plain_swap_pricer.rs: PlainSwapPricer::npv"]}
{"id": "C160", "title": "The itemised value of a swap lists every flow", "statement": "npv_result has the same value as npv, lists the flows of the fixed side and those of the floating side at the rate of exchange under 0, 1, ..., each with probability 1, and what is expected on a day is the sum of what is listed for it.", "quantifier": "all swaps and iteration orders", "why_tests_cant": "every iteration order of hash maps, any number of flows", "anchors": ["quantlib/src/pricing_engines/plain_swap_pricer.rs: PlainSwapPricer::npv_result", "quantlib/src/pricing_engines/npv_result.rs: NpvResult::get_expected_coupon_amount"]}
{"id": "C161", "title": "The exposure of a swap is the value of its sides", "statement": "fx_exposure maps each side's currency to the present value of that side times the notional, within rounding; if both sides have one currency, to the sum; no other currency is exposed; at the rate of exchange the exposures add up to npv times the notional; it fails exactly if npv does.", "quantifier": "all swaps, curves and iteration orders, up to 2^20 flows", "why_tests_cant": "error bound over all floats, every iteration order", "anchors": ["quantlib/src/pricing_engines/plain_swap_pricer.rs: PlainSwapPricer::fx_exposure"]}
{"id": "C162", "title": "The fair forward carries the spot price", "statement": "The fair forward is the spot price times the borrowing factor over the collateral factor times the product of 1 - yield over the dividends up to maturity, within four roundings; today it is the spot price; it fails exactly if a factor or the dividend ratio does; a date in the past is an error.", "quantifier": "all spots, curves, dividends, evaluation dates and maturities", "why_tests_cant": "error bound over all floats, every date", "anchors": ["quantlib/src/pricing_engines/futures_pricer.rs: FuturesPricer::fair_forward"]}
{"id": "C163", "title": "A future is worth its fair forward", "statement": "npv of a future is the fair forward at its maturity, the itemised value has that value and no items; its exposure is (forward - average trade price) * notional in the future's currency alone, within rounding; an error of the forward is an error of both.", "quantifier": "all futures, curves, spots", "why_tests_cant": "error bound over all floats", "anchors": ["quantlib/src/pricing_engines/futures_pricer.rs: FuturesPricer::npv", "quantlib/src/pricing_engines/futures_pricer.rs: FuturesPricer::fx_exposure", "quantlib/src/instruments/futures.rs: Futures"]}
{"id": "C164", "title": "An FX future is worth the carried rate", "statement": "npv is the rate of exchange times the underlying currency's factor over the futures currency's, within three roundings; it is exposed to the underlying currency with that factor and to the futures currency with minus the discounted trade price, times the notional; at the rate of exchange these add up to the discounted gain; it fails exactly if a factor does.", "quantifier": "all FX futures, curves, rates", "why_tests_cant": "error bound over all floats", "anchors": ["quantlib/src/pricing_engines/fx_futures_pricer.rs: FxFuturesPricer::npv", "quantlib/src/pricing_engines/fx_futures_pricer.rs: FxFuturesPricer::fx_exposure"]}
{"id": "C165", "title": "Stock and cash are worth their price", "statement": "The identity pricer returns the market price, the unit pricer exactly 1, the itemised values have no items; an instrument without its own exposure is exposed to its currency alone, with npv times notional within one rounding.", "quantifier": "all prices, notionals, currencies", "why_tests_cant": "all floats", "anchors": ["quantlib/src/pricing_engines/identity_pricer.rs: IdentityPricer", "quantlib/src/pricing_engines/unit_pricer.rs: UnitPricer", "quantlib/src/pricing_engines/pricer.rs: PricerTrait::fx_exposure"]}
{"id": "C166", "title": "Call and put are in parity", "statement": "Whatever the volatility: a call has a price exactly if the put has, namely if forward, volatility, discount factor and, for another currency, quanto data exist; call less put is the discounted forward less the discounted strike, and no call is worth more than the discounted forward and no put more than the discounted strike, within rounding.", "quantifier": "all options, market data, volatility functions and quanto data", "why_tests_cant": "all volatility functions, error bound over all floats", "anchors": ["quantlib/src/pricing_engines/option_analytic_pricer.rs: OptionAnalyticPricer::npv", "quantlib/src/pricing_engines/option_analytic_pricer.rs: OptionAnalyticPricer::npv_result"]}
{"id": "C167", "title": "An option is worth its expected payoff", "statement": "With a constant volatility the price is, within a stated error, the discounted integral of the payoff against the lognormal distribution around the forward with deviation volatility times square root of time; so it is not below the discounted payoff at the forward, nor above the forward or strike, and does not fall as the volatility rises.", "quantifier": "forwards and strikes up to 2^30 with moneyness 2^-20 to 2^20, volatilities 2^-10 to 16, times 2^-20 to 128 years, factors up to 2^20", "why_tests_cant": "an integral over the real line, error bound over all floats", "anchors": ["quantlib/src/pricing_engines/option_analytic_pricer.rs: OptionAnalyticPricer::npv", "quantlib/src/parameters/volatilities/constant_volatility.rs: ConstantVolatility"]}
{"id": "C168", "title": "An option at its edges", "statement": "On its last day an option is worth its payoff; an expired one is an error; one paid in another currency without quanto data is an error, and with them is priced on the forward they adjust; making an option keeps its terms and names the pair underlying to paying currency exactly if they differ.", "quantifier": "all options, curves, prices", "why_tests_cant": "every date and price", "anchors": ["quantlib/src/pricing_engines/option_analytic_pricer.rs: OptionAnalyticPricer::npv", "quantlib/src/instruments/vanilla_option.rs: VanillaOption::new"]}
{"id": "C169", "title": "A portfolio lists each code once", "statement": "The underlying codes, exchange-rate codes, quanto pairs, underlyings that need a volatility and type names of a portfolio are those of its instruments, each listed once, in the order of first appearance.", "quantifier": "all portfolios", "why_tests_cant": "every list of instruments", "anchors": ["quantlib/src/instrument.rs: Instruments::get_all_underlying_codes", "quantlib/src/instrument.rs: Instruments::get_all_fxcode_for_fxfutures", "quantlib/src/instrument.rs: Instruments::get_all_quanto_fxcode_und_pairs", "quantlib/src/instrument.rs: Instruments::get_all_type_names"]}
{"id": "C170", "title": "A portfolio lists its currencies", "statement": "The currencies of a portfolio are those its instruments are in, those their futures are on and those of the floating legs of its swaps, each listed once in order of first appearance.", "quantifier": "all portfolios", "why_tests_cant": "every list of instruments", "anchors": ["quantlib/src/instrument.rs: Instruments::get_all_currencies"]}
{"id": "C171", "title": "A selection holds exactly what was asked for", "statement": "Selecting by underlying, currency, type or maturity gives, in the portfolio's order, the instruments with that underlying, currency, type or maturity and no others, without the excluded types; those maturing up to a date and those maturing later make up the portfolio.", "quantifier": "all portfolios, codes, dates, exclusions", "why_tests_cant": "every list of instruments", "anchors": ["quantlib/src/instrument.rs: Instruments::instruments_with_underlying", "quantlib/src/instrument.rs: Instruments::instruments_with_currency", "quantlib/src/instrument.rs: Instruments::instruments_with_types", "quantlib/src/instrument.rs: Instruments::instruments_with_maturity_upto", "quantlib/src/instrument.rs: Instruments::instruments_with_maturity_over"]}
{"id": "C172", "title": "The shortest and the longest maturity", "statement": "The shortest maturity is the earliest of those that exist and absent exactly if none does; the longest is the latest, and absent if an instrument has no maturity or there is none.", "quantifier": "all portfolios", "why_tests_cant": "every list of instruments", "anchors": ["quantlib/src/instrument.rs: Instruments::get_shortest_maturity", "quantlib/src/instrument.rs: Instruments::get_longest_maturity"]}
{"id": "C173", "title": "The curves a portfolio needs", "statement": "The curve names of a portfolio are those its instruments are discounted, collateralised, borrowed or projected with, each listed once; the instruments using a curve are those that need it, each once, without the excluded types.", "quantifier": "all match parameters, portfolios, curves", "why_tests_cant": "every list of instruments and every mapping", "anchors": ["quantlib/src/pricing_engines/match_parameter.rs: MatchParameter", "quantlib/src/instrument.rs: Instruments::get_all_curve_names", "quantlib/src/instrument.rs: Instruments::instruments_using_curve"]}
{"id": "C174", "title": "Rates of exchange are consistent", "statement": "The engine's rate for a pair is the quoted one, else the inverse of the opposite quote, else a cross rate; if the quotes come within eps of one set of levels, every rate found is within 3 eps + 2^-23 of the ratio of the levels, whichever path it took; it is an error exactly if no path exists; a direct quote is used as it is.", "quantifier": "all quote tables, pairs, eps up to 1/16, levels between 2^-40 and 2^40", "why_tests_cant": "every path through the quotes, error bound over all floats", "anchors": ["quantlib/src/pricing_engines/engine.rs: Engine::with_parameter_data"]}
{"id": "C175", "title": "Every instrument is priced by one engine", "statement": "Instruments are distributed over the first category that accepts them: each goes to exactly one group, in order, every group keeps to its category; it is an error exactly if an instrument fits none.", "quantifier": "all lists of categories, all portfolios", "why_tests_cant": "every list of instruments and categories", "anchors": ["quantlib/src/pricing_engines/engine_generator.rs: InstrumentCategory::contains", "quantlib/src/pricing_engines/engine_generator.rs: EngineGenerator::distribute_instruments"]}
{"id": "C176", "title": "A volatility surface passes through its grid", "statement": "Building succeeds if the forwards exist; the built surface is, within a stated rounding error, piecewise linear in time and in forward moneyness through its grid and flat beyond it: at a tenor and the forward moneyness of a grid moneyness it is that cell, elsewhere it lies between the smallest and largest cell; with two tenors and two moneyness knots it answers every time and moneyness.", "quantifier": "all surfaces with sorted finite times and moneyness and finite bounded grids, all times and moneyness", "why_tests_cant": "every grid, time and moneyness, error bound over all floats", "anchors": ["quantlib/src/parameters/volatilities/local_volatility_surface.rs: LocalVolatilitySurface::build", "quantlib/src/parameters/volatilities/local_volatility_surface.rs: LocalVolatilitySurface::get_value"]}
{"id": "C177", "title": "A constant surface is its constant", "statement": "A surface made from one volatility holds it in every cell and gives it back exactly at every time and moneyness, so an option is worth the same, bit by bit, under the surface and under the constant volatility.", "quantifier": "all volatilities, tenors, moneyness grids, options", "why_tests_cant": "every float, time and moneyness", "anchors": ["quantlib/src/parameters/volatilities/local_volatility_surface.rs: LocalVolatilitySurface::with_constant_volatility"]}
{"id": "C178", "title": "A surface from quotes reproduces the quotes", "statement": "The grid made from market quotes has one row per tenor and one column per moneyness, holds the bilinear interpolation of the quotes within a stated error, holds a quote itself where tenor and strike are quoted, and the built surface gives that quote back at that date and strike.", "quantifier": "all quote tables, tenors, moneyness grids", "why_tests_cant": "every table of quotes, error bound over all floats", "anchors": ["quantlib/src/parameters/volatilities/local_volatility_surface.rs: LocalVolatilitySurface::with_market_surface", "quantlib/src/data/surface_data.rs: SurfaceData"]}
{"id": "C179", "title": "Bad quotes are refused", "statement": "Quotes with dates out of order, dates before the evaluation date or without a spot make no surface; an accepted table has ordered dates, increasing strikes, and finite volatilities.", "quantifier": "all quote tables", "why_tests_cant": "every table of quotes", "anchors": ["quantlib/src/parameters/volatilities/local_volatility_surface.rs: LocalVolatilitySurface::with_market_surface", "quantlib/src/parameters/volatilities/local_volatility_surface.rs: LocalVolatilitySurface::build"]}
{"id": "C180", "title": "A bump of a window of the surface moves that window", "statement": "Bumping from one time and moneyness to another adds the bump to exactly the cells of the knots within, keeps the shape, and every point of the built surface moves by between nothing and the bump; adjacent windows make one; a bump and its opposite undo each other.", "quantifier": "all surfaces, windows, bumps", "why_tests_cant": "every grid and window, error bound over all floats", "anchors": ["quantlib/src/parameters/volatilities/local_volatility_surface.rs: LocalVolatilitySurface::bump_volatility"]}
{"id": "C181", "title": "Sticky to the strike, sticky to moneyness", "statement": "A surface that sticks to moneyness does not depend on the market price it is built at; one that sticks to the strike keeps, at any market price, the volatility of each strike.", "quantifier": "all surfaces, market prices", "why_tests_cant": "every grid and price", "anchors": ["quantlib/src/parameters/volatilities/local_volatility_surface.rs: LocalVolatilitySurface::build", "quantlib/src/parameters/volatilities/local_volatility_surface.rs: LocalVolatilitySurface::get_value", "quantlib/src/pricing_engines/engine.rs: Engine::set_delta_gamma"]}
{"id": "C182", "title": "The engine reports the price before any bump", "statement": "Whatever greeks are asked for, the price, the value (price times notional) and the expected cash flows that a successful calculation reports for an instrument are those of its pricer in the market as it was before anything was bumped; a later failure leaves them. No engine is made for no instruments or a matured one. Engines work for any instruments, and a second calculation works.", "quantifier": "all markets, instruments, pricers, configurations", "why_tests_cant": "every pricer and every combination of requested greeks", "anchors": ["quantlib/src/pricing_engines/engine.rs: Engine::with_instruments", "quantlib/src/pricing_engines/engine.rs: Engine::set_npv_results", "quantlib/src/pricing_engines/engine.rs: Engine::set_values", "quantlib/src/pricing_engines/engine.rs: Engine::calculate", "quantlib/src/pricing_engines/calculation_result.rs: CalculationResult::set_value"]}
{"id": "C183", "title": "Exchange exposure is reported once per instrument", "statement": "A successful calculation of exposures leaves the market and everything else in the reports alone and reports for each instrument what its pricer says of its reported price: for a pricer without its own rule, price times notional in the instrument's currency.", "quantifier": "all markets, instruments, pricers", "why_tests_cant": "every pricer and set of instruments", "anchors": ["quantlib/src/pricing_engines/engine.rs: Engine::set_fx_exposures", "quantlib/src/pricing_engines/pricer.rs: PricerTrait::fx_exposure"]}
{"id": "C184", "title": "Delta and gamma come from moving one underlying", "statement": "Stocks and futures get a percent of their price as delta and no gamma. For every other instrument and each of its underlyings, delta is the two-sided difference quotient of its prices with that underlying alone moved up and down by the ratio and gamma the second difference with its unmoved price; the market is left exactly as it was, nothing else in the reports changes, no later stage changes them. A failed calculation leaves the market as it was.", "quantifier": "all markets, instruments, pricers, ratios", "why_tests_cant": "every pricer, instrument and underlying", "anchors": ["quantlib/src/pricing_engines/engine.rs: Engine::preprocess_delta_gamma", "quantlib/src/pricing_engines/engine.rs: Engine::set_delta_gamma", "quantlib/src/pricing_engines/engine.rs: Engine::calculate"]}
{"id": "C185", "title": "A reported greek is its difference quotient up to rounding", "statement": "For prices, bumps and notionals of ordinary size the reported slope and delta are within a few units in the last place of the exact difference quotient of the prices, gamma within a stated multiple of the rounding of the prices; for a price quadratic in the underlying these quotients are the first and second order changes for a move of one percent, whatever the ratio.", "quantifier": "all finite prices, bumps, notionals in stated ranges", "why_tests_cant": "every float, error bound", "anchors": ["quantlib/src/pricing_engines/engine.rs: Engine::set_delta_gamma", "quantlib/src/pricing_engines/engine.rs: Engine::set_rho", "quantlib/src/pricing_engines/engine.rs: Engine::set_vega"]}
{"id": "C186", "title": "Rho comes from bumping one curve", "statement": "For every instrument but a stock and each curve it is priced off, the reported rho is the change of its price when that curve alone is bumped by the configured amount, per bump, for a basis point and the notional; all curves an instrument is priced off and no others are bumped, each up and down once; nothing else in the reports changes. Afterwards the rates are those of before, within two roundings.", "quantifier": "all markets, instruments, pricers, match parameters, bumps", "why_tests_cant": "every pricer and set of curves", "anchors": ["quantlib/src/pricing_engines/engine.rs: Engine::set_rho", "quantlib/src/pricing_engines/engine.rs: Engine::calculate", "quantlib/src/parameters/zero_curve.rs: ZeroCurve::bump_time_interval"]}
{"id": "C187", "title": "Vega comes from bumping one surface", "statement": "For every instrument but stocks and futures and each of its underlyings, the reported vega is the change of its price when that underlying's whole surface alone is bumped, per bump, for a percent and the notional; nothing else in the reports changes and the cells of the surfaces are afterwards those of before within two roundings.", "quantifier": "all markets, instruments, pricers, bumps", "why_tests_cant": "every pricer and surface", "anchors": ["quantlib/src/pricing_engines/engine.rs: Engine::set_vega", "quantlib/src/pricing_engines/engine.rs: Engine::calculate", "quantlib/src/parameters/volatilities/local_volatility_surface.rs: LocalVolatilitySurface::bump_volatility"]}
{"id": "C188", "title": "Dividend delta comes from bumping one dividend", "statement": "For every instrument but stock and cash and each of its underlyings, the reported dividend delta is the change of its price when that underlying's dividends alone are raised, per bump, for a basis point and the notional; nothing else in the reports changes; the amounts and the ratios are afterwards those of before within two roundings; an underlying without dividends is no reason to panic.", "quantifier": "all markets with one dividend per underlying, instruments, pricers, bumps", "why_tests_cant": "every pricer and dividend table", "anchors": ["quantlib/src/pricing_engines/engine.rs: Engine::set_div_delta", "quantlib/src/pricing_engines/engine.rs: Engine::calculate", "quantlib/src/utils/distribute_value.rs: DiscreteRatioDividend::bump_date_interval"]}
{"id": "C189", "title": "Rho by tenor is a partition of the curve", "statement": "For every instrument but stock and cash and each curve it is priced off, the reported ladder has one entry a tenor: the change of its price when only the rates after the tenor before and up to this tenor are bumped, each window up and down once; for rising tenors each time up to the last is in exactly one window. Entries beyond the first tenor at which nothing on the curve is alive are zero; nothing else in the reports changes; rates outside the windows are untouched and those inside restored within two roundings.", "quantifier": "all markets, instruments, pricers, tenors, bumps", "why_tests_cant": "every tenor list, curve and pricer", "anchors": ["quantlib/src/pricing_engines/engine.rs: Engine::set_rho_structure", "quantlib/src/pricing_engines/engine.rs: Engine::calculate", "quantlib/src/parameters/zero_curve.rs: ZeroCurve::bump_time_interval"]}
{"id": "C190", "title": "Dividend delta by tenor", "statement": "For every instrument but stock and cash and each underlying with dividends, the reported ladder has one entry a tenor: the change of its price when only the dividends after the tenor before and up to this tenor are raised; entries beyond the first tenor at which nothing on the underlying is alive are zero; nothing else in the reports changes.", "quantifier": "all markets, instruments, pricers, tenors, bumps", "why_tests_cant": "every tenor list, dividend table and pricer", "anchors": ["quantlib/src/pricing_engines/engine.rs: Engine::set_div_structure", "quantlib/src/pricing_engines/engine.rs: Engine::calculate", "quantlib/src/utils/distribute_value.rs: DiscreteRatioDividend::bump_date_interval"]}
{"id": "C191", "title": "Vega by tenor", "statement": "For every instrument but cash, stock and futures and each of its underlyings, the reported ladder has one entry a tenor. The volatilities after the tenor before and up to this tenor are raised, the last window first, each on top of those before, and the entry is the change of the price by it for one percent; a window that starts after the last maturity on the underlying gets zero and what it moves is counted at the next tenor below. Nothing else in the reports changes, and afterwards the surface is what it was.", "quantifier": "all markets, instruments, pricers, tenors, bumps", "why_tests_cant": "every tenor list, surface and pricer", "anchors": ["quantlib/src/pricing_engines/engine.rs: Engine::set_vega_structure", "quantlib/src/pricing_engines/engine.rs: Engine::calculate", "quantlib/src/parameters/volatilities/local_volatility_surface.rs: LocalVolatilitySurface::bump_volatility"]}
{"id": "C192", "title": "Theta is the change of the price over a day with the cash flows in between", "statement": "Cash and stock have theta zero. The instruments that mature within the configured number of days are priced again with the evaluation date moved to the first of their maturities, the others with it moved by that number of days: theta is the change of the price plus the cash flows after today up to that date, for one day and the whole notional. The date is put back after each, the curves and surfaces do not change and the prices come back; nothing else in the reports changes; without prices (and so cash flows) theta is an error.", "quantifier": "all markets, instruments, pricers, dividend tables, numbers of days", "why_tests_cant": "every market, date and set of maturities", "anchors": ["quantlib/src/pricing_engines/engine.rs: Engine::preprocess_theta", "quantlib/src/pricing_engines/engine.rs: Engine::set_theta_for_given_instruments", "quantlib/src/pricing_engines/engine.rs: Engine::calculate", "quantlib/src/evaluation_date.rs: EvaluationDate::set_date"]}
{"id": "C193", "title": "Vega by tenor and moneyness", "statement": "For every instrument but cash, stock and futures and each of its underlyings the reported matrix has one entry for each tenor and moneyness. The cells of the surface are raised by the bump configured for the matrix one on top of the other, the tenors from the last, in each the moneynesses from the first; the entry is the change of the price by that cell for one percent; tenors that start after the last maturity are left out and zero. Nothing else in the reports changes, matrices are reported only for the underlyings of an instrument, and afterwards the surface is what it was.", "quantifier": "all markets, instruments, pricers, tenors, moneynesses, bumps", "why_tests_cant": "every tenor and moneyness list, surface and pricer", "anchors": ["quantlib/src/pricing_engines/engine.rs: Engine::set_vega_matrix", "quantlib/src/pricing_engines/engine.rs: Engine::calculate", "quantlib/src/parameters/volatilities/local_volatility_surface.rs: LocalVolatilitySurface::bump_volatility"]}
{"id": "C194", "title": "A configuration is checked", "statement": "CalculationConfiguration::new gives the configuration it was asked for exactly if delta and gamma are both wanted or neither, every bump is above zero and theta_day is above zero; otherwise an error. What is set later by the with_ methods keeps to the same rules.", "quantifier": "all flags, bumps and theta days", "why_tests_cant": "every combination of flags and of f32 bumps, with the infinities and NaN", "anchors": ["quantlib/src/pricing_engines/calculation_configuration.rs: CalculationConfiguration::new", "quantlib/src/pricing_engines/calculation_configuration.rs: CalculationConfiguration::with_delta_bump_ratio"]}
{"id": "C195", "title": "A report in another currency", "statement": "representation_currency_conversion to the currency the report is in leaves it as it is; to another the value, the exposures, every greek, ladder, matrix and theta are the product with the rate, correctly rounded, none comes or goes, and the report is in the new currency. All the amounts are converted, the value stays the net present value of the units, and converting back gives the report of before.", "quantifier": "all reports, currencies and rates", "why_tests_cant": "every report with any set of figures, every f32 rate", "anchors": ["quantlib/src/pricing_engines/calculation_result.rs: CalculationResult::representation_currency_conversion"]}
{"id": "C196", "title": "A loaded engine has the market of the data", "statement": "When with_parameter_data returns Ok, the engine's prices, dividends, curves, exchange rates, volatility surfaces and quanto parameters are those that the given data and the match parameter say for the instruments it was given: each asked-for underlying has its price and its dividend, no other has one, each curve is the one built from the data of its name, a constant volatility goes before a surface, and every price and dividend observes the evaluation date once.", "quantifier": "all data, match parameters, portfolios and evaluation dates", "why_tests_cant": "nine maps of data, any portfolio, any mapping; the objects are shared and found by name", "anchors": ["quantlib/src/pricing_engines/engine.rs: Engine::with_parameter_data"]}
{"id": "C197", "title": "Loading fails exactly if something is lacking", "statement": "with_parameter_data returns an error only if a rate, a curve name, a curve, a price, a volatility, a mapping, a correlation or the volatility of a rate that some instrument asks for is missing from the data or cannot be built; when one is, it does not return Ok. Curves that the match parameter names are loaded.", "quantifier": "all data, match parameters, portfolios and evaluation dates", "why_tests_cant": "every way in which data can be incomplete", "anchors": ["quantlib/src/pricing_engines/engine.rs: Engine::with_parameter_data"]}
{"id": "C198", "title": "Each instrument gets the pricer of its own market data", "statement": "initialize_pricers gives each instrument, under its code, a pricer that refers to the curves the match parameter names for it (discount, forward, collateral, borrowing, swap curves), to the past fixings of its index, the price of its underlying, its surface, its exchange rate and its quanto; there is one for every kind of instrument the library has.", "quantifier": "all portfolios, match parameters and loaded engines", "why_tests_cant": "all combinations of kinds, currencies, indices and mappings", "anchors": ["quantlib/src/pricing_engines/pricer_factory.rs: PricerFactory::create_pricer", "quantlib/src/pricing_engines/engine.rs: Engine::initialize_pricers"]}
{"id": "C199", "title": "Parallel engines report like one after the other", "statement": "EngineGenerator::calculate returns Ok only if every group's engine does; then, whatever the schedule of the threads, the results hold for each instrument of each group the report of one run of its group's engine, and nothing else: after distribute_instruments exactly one report per instrument. It returns an error only if some group's engine fails, and then all reports are of groups that did well. Results depend only on the portfolio and the data, not on the schedule.", "quantifier": "all portfolios, categories, data and schedules of the threads", "why_tests_cant": "the order in which the threads take the lock, and which are left out after an error, is up to the scheduler", "anchors": ["quantlib/src/pricing_engines/engine_generator.rs: EngineGenerator::calculate", "quantlib/src/pricing_engines/engine_generator.rs: EngineGenerator::distribute_instruments"]}
{"id": "C200", "title": "How a portfolio is split does not change its figures", "statement": "For two sets of categories with which both calculations succeed, each instrument's price, value, delta and gamma are the same: its pricer reads the same curves, prices, dividends, surfaces, rates and fixings in whatever group it is. So is its theta.", "quantifier": "all portfolios, categories, data, match parameters and pricing formulas", "why_tests_cant": "all ways to split a portfolio; each engine loads its own market", "anchors": ["quantlib/src/pricing_engines/engine_generator.rs: EngineGenerator::calculate", "quantlib/src/pricing_engines/engine.rs: Engine::with_parameter_data", "quantlib/src/pricing_engines/engine.rs: Engine::calculate"]}
{"id": "C201", "title": "A Cholesky factor multiplies back to its matrix", "statement": "If cholesky_decomposition returns Ok(l), l is lower triangular. If its diagonal is finite, all of it is, the diagonal is positive, l l^T is positive definite, and differs from the matrix on and below the diagonal by at most ((1 + 2^-24)^(n+3) - 1) |l| |l|^T plus an underflow term; with no diagonal entry above D and up to 65536 rows each entry is within (n + 4) D / 2^23.", "quantifier": "all matrices of f32 of all sizes for which a factor is returned", "why_tests_cant": "the rounding errors of all matrices of all sizes; the tests look at three shapes", "anchors": ["quantlib/src/math/cholescky_factorization.rs: cholesky_decomposition"]}
{"id": "C202", "title": "Which matrices cholesky_decomposition takes", "statement": "Only what stands on and below the diagonal is read; a matrix that is not square is refused; a matrix that is taken is symmetric, positive definite, and its factor finite; one that is positive definite is not refused. correlated_path has a row per row of the matrix and a column per step, and panics exactly if the matrix is refused.", "quantifier": "all matrices", "why_tests_cant": "what rounding does near a singular matrix", "anchors": ["quantlib/src/math/cholescky_factorization.rs: cholesky_decomposition", "quantlib/src/pricing_engines/montecarlo/rand_generator.rs: correlated_path"]}
{"id": "C203", "title": "A matrix clear of singular is always factored", "statement": "A finite symmetric matrix of n rows, entries at most D in size (2^-60 <= D <= 2^40) and no eigenvalue below n (n + 4) D / 2^21 is factored, and the factor is finite.", "quantifier": "all such matrices of all sizes", "why_tests_cant": "rounding errors grow with the size; no overflow may happen on the way", "anchors": ["quantlib/src/math/cholescky_factorization.rs: cholesky_decomposition"]}
{"id": "C204", "title": "What an engine reports is the pricing formula on the data it was given", "statement": "With the library's own pricers in the engines: an instrument of a portfolio that was calculated with prices asked for is reported with a unit notional, a price and a value that are those of the formula of its kind, read with the curves made from the data of the names that the match parameter has for it, the stock price, the dividends, the surface, the fixings and the rates of exchange in the data: futures, options, bonds, swaps, foreign exchange futures, stocks and cash. The same for the exposures by currency. How the portfolio was split does not matter.", "quantifier": "all data, configurations, match parameters, instruments, portfolios with distinct codes, ways of splitting them, and orders of iteration", "why_tests_cant": "the whole path from market data to a report, through which a name may be confused anywhere", "anchors": ["quantlib/src/pricing_engines/engine.rs: Engine", "quantlib/src/pricing_engines/engine_generator.rs: EngineGenerator", "quantlib/src/pricing_engines/pricer.rs: PricerTrait", "quantlib/src/pricing_engines/pricer_factory.rs: PricerFactory"]}
{"id": "C205", "title": "The reported price is close to the price of the textbook", "statement": "Under bounds on the data, a reported price is within an explicit rounding error of: for a futures spot times the borrowing factor over the collateral factor times what dividends leave; for a foreign exchange futures the rate times the ratio of the factors; for a bond the present value of its future cash flows at the bond's curve; for a swap the present values of its two legs, the floating one at the rate of exchange; for an option on a constant volatility the discounted Black price at that volatility; for a stock exactly its price.", "quantifier": "all data within the bounds, all instruments, all portfolios", "why_tests_cant": "rounding through the whole calculation", "anchors": ["quantlib/src/pricing_engines/engine.rs: Engine::set_npv_results", "quantlib/src/pricing_engines/futures_pricer.rs: FuturesPricer", "quantlib/src/pricing_engines/bond_pricer.rs: BondPricer", "quantlib/src/pricing_engines/plain_swap_pricer.rs: PlainSwapPricer", "quantlib/src/pricing_engines/option_analytic_pricer.rs: OptionAnalyticPricer"]}
{"id": "C206", "title": "Put-call parity holds between reports", "statement": "The reported prices of a call and a put on the same underlying, of one strike, maturity and currency, and of the futures of that maturity satisfy call - put = D (futures - strike) within an explicit rounding error, D being the factor of the funding curve, also if they are reported in different portfolios.", "quantifier": "all data for which the call and the futures have prices, any surface, with or without quanto data, all portfolios", "why_tests_cant": "rounding, any surface, any split of the portfolio", "anchors": ["quantlib/src/pricing_engines/engine.rs: Engine::set_npv_results", "quantlib/src/pricing_engines/option_analytic_pricer.rs: OptionAnalyticPricer::npv", "quantlib/src/pricing_engines/futures_pricer.rs: FuturesPricer::npv"]}
{"id": "C207", "title": "A report does not depend on hash map order", "statement": "Two calculations of one instrument on the same data give the same price, value, delta and gamma unless it is a bond or a swap; for a bond they are within an explicit rounding error of one another.", "quantifier": "all pairs of calculations, of whatever portfolios holding the instrument and whatever orders of iteration", "why_tests_cant": "the order is random in each run", "anchors": ["quantlib/src/pricing_engines/engine.rs: Engine", "quantlib/src/pricing_engines/bond_pricer.rs: BondPricer::npv", "quantlib/src/pricing_engines/plain_swap_pricer.rs: PlainSwapPricer::npv"]}
{"id": "C208", "title": "Reported delta and gamma are differences of the instrument's own formula", "statement": "For a futures or a stock the reported delta is the price times a percent times the notional and gamma is zero; for an option they are the first and second differences of the option formula at the stock price times one plus and one minus the delta ratio, with surface, curves, dividends and quanto data as they were.", "quantifier": "all data, configurations, portfolios with distinct codes", "why_tests_cant": "the bumps are made on shared state that other instruments are priced from too", "anchors": ["quantlib/src/pricing_engines/engine.rs: Engine::set_delta_gamma", "quantlib/src/pricing_engines/option_analytic_pricer.rs: OptionAnalyticPricer::npv"]}
{"id": "C209", "title": "The yield found for a bond is one that was tried, and reprices it if the search ended at its target", "statement": "Whatever find_bond_yield returns is the guess (0.02 if there is none) or a parameter that was priced, with the least cost of those; a cost below the target means that the bond priced at that yield is within 3.2e-5 of the given price, and its textbook price within the rounding error more. The cost does not depend on what yield the pricer had before. The gradient that steers the search is the central difference of the cost at 5e-5, within explicit rounding. That the yield returned reprices the bond is NOT guaranteed.", "quantifier": "all bonds, prices, guesses, curves, fixings, orders of iteration, and all sequences of parameters a search may try", "why_tests_cant": "the search is argmin's, and any sequence of parameters may come", "anchors": ["quantlib/src/pricing_engines/krx_yield_pricer.rs: KrxYieldPricer::find_bond_yield, CostFunction::cost, Gradient::gradient"]}
{"id": "C210", "title": "The price of a bond falls with its yield, and so its yield is unique", "statement": "For a bond whose cash flows to come are not negative the textbook price at a greater yield is less, by at least the difference of the yields times the duration slope at the greater one; and two yields whose computed prices are both within eps of a price differ by at most (2 eps and both rounding errors) over that slope.", "quantifier": "all bonds, all yields from -1/2 to 1/2 for a period with factors from 2^-40 to 2^40, all prices", "why_tests_cant": "for all pairs of yields, with rounding in both prices", "anchors": ["quantlib/src/pricing_engines/krx_yield_pricer.rs: KrxYieldPricer::npv, find_bond_yield"]}
{"id": "C211", "title": "A code of a KRX message is decoded by the interface its letters say", "statement": "No code is listed twice in the map from codes to interfaces, so that the order of the insertions has no effect; each listed code has the interface of its class (trade, quote, both), market (derivatives, securities, bonds) and number of levels (ten for the products 4 and 5); and each of the sixteen derivatives has codes for trades, for quotes and for both.", "quantifier": "all codes, orders of insertion, and products", "why_tests_cant": "a swapped letter or digit is seen only in a message that has it", "anchors": ["trading-engine/src/data/krx/interface_map.rs: KRX_TR_CODE_MAP"]}
{"id": "C212", "title": "A lazy string is made once, whatever the schedule", "statement": "With any number of threads reading a LazyString, its initializer returns at most once; nothing is read before, everything read is what it returned; a reader that waits waits for one that makes the string or can go on; an initializer that panics leaves the string to be made by another. What is read of a deserialized one is what was serialized.", "quantifier": "all schedules of any number of threads, all initializers, panics included", "why_tests_cant": "schedules", "anchors": ["trading-engine/src/utils/lazy_string.rs: LazyString"]}
{"id": "C213", "title": "The codes of exchange rates for a list of currencies are all their pairs", "statement": "currencies_to_fx_codes gives a code for each ordered pair of different currencies of the list and no other, each once if no currency is listed twice; must_include adds the codes that are not yet there, each once, at the end in their order.", "quantifier": "all lists of currencies and of codes", "why_tests_cant": "for all lists", "anchors": ["quantlib/src/utils/make_fx.rs: currencies_to_fx_codes"]}
{"id": "C214", "title": "Enumerations and bytes are the same, and balances begin empty of orders", "statement": "from_u8 of OrderSide, DataType and TradeType gives a variant exactly for its discriminant and an error for any other byte; opposite changes the side, and twice gives it back; a Balance begins with the quantity as outstanding and liquidatable, nothing pending and no bounds, each builder sets its bound alone, and is_empty says whether nothing is outstanding.", "quantifier": "all bytes, sides, quantities and bounds", "why_tests_cant": "for all bytes and numbers", "anchors": ["trading-engine/src/types/enums.rs: FromU8", "trading-engine/src/conductor/oms/account.rs: Balance"]}
{"id": "C215", "title": "Vega in a report is the change of the option's own price when its surface is bumped", "statement": "If prices and vega are asked for, and theta is not, the vega that a report has for an underlying of an instrument, in whatever portfolio and group, is (price on the bumped surface - price) / bump * 1% * notional, where both prices are by the instrument's own formula, from the curves, price, dividends, quanto and fixings that the data have for it, the same in both; and the bumped surface is the one made from its market data with every volatility raised by the bump. The price is the one in the report.", "quantifier": "all data, portfolios, groups, orders of iteration, instruments with a volatility and settings that ask for vega and not for theta", "why_tests_cant": "the surface passes through a shared cell that is bumped and restored for each underlying in turn", "anchors": ["quantlib/src/pricing_engines/engine.rs: Engine::calculate, set_vega", "quantlib/src/pricing_engines/option_analytic_pricer.rs"]}
{"id": "C216", "title": "Rho in a report is the change of the instrument's own price when the curves of one name are bumped", "statement": "If prices and rho are asked for, and theta is not, the rho that a report has for a curve the instrument needs is (price with that curve bumped - price) / bump * 1bp * notional by the instrument's own formula. Every curve of that name that its pricer reads is bumped, in whatever place; no other curve differs from the data but by an earlier bump up and down again, the surface no more than by that of vega, and price, dividends, rate of exchange, quanto and fixings not at all. For futures, options, bonds, FX futures and swaps the formula and the curves are spelled out.", "quantifier": "all data, portfolios, groups, orders of iteration, instruments but stocks, names of curves they need, and settings that ask for rho and not for theta", "why_tests_cant": "curves are shared between instruments and bumped in place, one after another", "anchors": ["quantlib/src/pricing_engines/engine.rs: Engine::calculate, set_rho"]}
{"id": "C217", "title": "The delta of dividends in a report is the change of the instrument's own price when its dividends are bumped", "statement": "If prices and the delta of dividends are asked for, and theta is not, the figure a report has for the first underlying of an instrument is (price with its dividends bumped - price) / bump * 1bp * notional by the instrument's own formula; only the dividends of that underlying are bumped, its spot is the same, and curves and surface differ from the data by no more than what vega and rho did and undid. For futures and options the formula is spelled out.", "quantifier": "all data, portfolios, groups, orders of iteration, instruments with underlyings but stocks, and settings that ask for it and not for theta", "why_tests_cant": "dividends are shared between the price of an underlying and its surfaces", "anchors": ["quantlib/src/pricing_engines/engine.rs: Engine::calculate, set_dividend_delta"]}
{"id": "C218", "title": "Theta in a report is the change of the instrument's own price over the days, from the data", "statement": "If prices and theta are asked for, the theta that a report has for an instrument other than cash and stock is (price later - price now + cash in between) * notional / years / 365, both prices by the instrument's own formula from what the data have for it. An instrument that matures within the theta days is priced at a date before or on its maturity and not after the last of the days, every other at the day that many days on. Only the date, the price and the dividends of its underlying follow the date: the price takes off every dividend passed on the way, in order, a stock without dividends stays; curves, volatilities, rates of exchange, quanto and past fixings are those of the data. The price now is the one at the evaluation date, for instruments of the second kind possibly after the stock has been carried to an earlier date and back. The cash is that of the coupons reported after the evaluation date and up to the date moved to. For futures, options, FX futures, bonds and swaps the formula is spelled out. Cash and stock have theta 0.", "quantifier": "all data, portfolios, groups, orders of iteration, instruments and settings that ask for theta", "why_tests_cant": "the date is a shared cell whose observers are told in an order of iteration, and theta moves it there and back twice", "anchors": ["quantlib/src/pricing_engines/engine.rs: Engine::calculate, set_theta_for_given_instruments", "quantlib/src/evaluation_date.rs: EvaluationDate", "quantlib/src/parameters/market_price.rs"]}
{"id": "C219", "title": "A portfolio that can be priced can be given its theta", "statement": "If a group of instruments is reported with the theta switched off, it is reported with the theta switched on.", "quantifier": "all data, portfolios and settings that differ in theta only", "why_tests_cant": "whether moving the date is possible depends on the dates of all dividends and the number of days", "anchors": ["quantlib/src/pricing_engines/engine.rs: set_theta_for_given_instruments", "quantlib/src/parameters/discrete_ratio_dividend.rs: update_evaluation_date"]}
{"id": "C220", "title": "A UDP response is the text that was sent", "statement": "A text of at most 1024 bytes, whatever its characters, is received as it was sent. Whatever bytes come, receive_response gives valid UTF-8 of at most 3072 bytes, and a datagram of at most 1024 bytes is given unchanged exactly if it is valid UTF-8. send_message sends the text's bytes as one datagram and takes nothing from what has come.", "quantifier": "all texts, all byte sequences, all states of the socket", "why_tests_cant": "it ranges over every sequence of bytes a datagram can hold", "anchors": ["trading-engine/src/communication/udp_client.rs: UdpClient::send_message, UdpClient::receive_response"]}
{"id": "C221", "title": "A response longer than the buffer is not taken for a whole one", "statement": "No two different texts give the same response. (Refuted: a datagram of more than 1024 bytes is cut without an error. The response is the whole characters that fit, followed by U+FFFD if the next character fits in part.)", "quantifier": "all texts of any length", "why_tests_cant": "which character is cut depends on the encoded lengths of all characters before it", "anchors": ["trading-engine/src/communication/udp_client.rs: UdpClient::receive_response"]}
{"id": "C222", "title": "UDP responses come one per datagram, in order, from the server asked", "statement": "After any history of arrivals, sends and receives, the responses are those of the first datagrams that came, one each, in the order of arrival; those not asked for yet are still there; and what went out is what was sent, in order. (Refuted: that the response is the server's. Whoever sent the datagram, it is the response.)", "quantifier": "all histories of arrivals, sends, receives and failures", "why_tests_cant": "it ranges over every interleaving of arrivals and calls", "anchors": ["trading-engine/src/communication/udp_client.rs: UdpClient"]}
