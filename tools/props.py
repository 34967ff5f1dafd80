import json
P=[]
def p(title,statement,quant,why,anchors):
    P.append(dict(id="C%02d"%(len(P)+1),title=title,statement=statement,quantifier=quant,why_tests_cant=why,anchors=anchors))
OB="trading-engine/src/orderbook/mod.rs: OrderBook::"
HB="trading-engine/src/orderbook/half_book.rs: HalfBook::"
LV="trading-engine/src/orderbook/level.rs: Level::"
p("Order book behaves like a price-time-priority exchange over any history",
  "Starting from an empty book, after any sequence of accepted requests (add, limit, market, cancel, modify, change quantity, remove-any, L2 snapshot, snapshot decomposition) every reply and the set of resting orders (id, side, price, quantity, queue position) are those of a reference exchange that keeps one flat list of resting orders in arrival order.",
  "all request sequences whose requests satisfy the stated preconditions (unique ids, positive quantities, quantities fitting u64), both overflow-check settings",
  "unit tests fix a handful of request sequences; queue position and running totals depend on the whole history",
  [OB+"process_limit_order",OB+"process_market_order",OB+"modify_order",OB+"cancel_order",HB+"add_limit_order"])
p("Aggregate quantities always equal the resting orders",
  "get_total_quantity of each side, aggregate_quantity_at_price for every price and each level snapshot's quantity equal the sum of the quantities of the orders resting there, and check_validity_quantity returns true.",
  "all valid request histories, all prices",
  "counters are updated incrementally in about fifteen places; a drift appears only after particular interleavings of partial fills, cancels and modifications",
  [HB+"get_total_quantity",HB+"aggregate_quantity_at_price",HB+"check_validity_quantity"])
p("Market sell orders keep the book consistent",
  "After process_market_order with side Ask the bid levels' quantities equal the sum of their resting orders and the call returns normally.",
  "all well-formed books and quantities",
  "the wrong update (level quantity subtracted twice) is observable only on partially consumed bid levels, or as a panic in overflow-checked builds",
  [OB+"process_market_order",HB+"bid_trade_market_order"])
p("Best price is the best resting price",
  "best_price of a side is the lowest ask / highest bid among resting orders, and the documented sentinel (i64::MAX / i64::MIN) when the side is empty.",
  "all valid request histories",
  "best_price is cached and repaired differently by each operation",
  [HB+"best_price",HB+"reinitialize_best_price",HB+"update_best_price"])
p("Order index coherence",
  "get_order(id) never panics; it returns the resting order with that id (right side, price and remaining quantity) iff such an order rests on that side; get_price agrees; ids of filled, cancelled or removed orders are forgotten.",
  "all valid request histories, all ids",
  "the id index and the level queues are two structures that must stay in step through every mutation",
  [HB+"get_order",HB+"get_price",HB+"cache"])
p("Limit price protection and price improvement order",
  "Every execution of a limit order is at a price at least as good as its limit, executions are reported from best to worse price, each price at most once, each quantity positive.",
  "all valid histories and incoming limit orders",
  "depends on all book shapes",
  [OB+"process_limit_order",HB+"trade_limit_order"])
p("Quantity conservation of matching",
  "Reported executed quantity plus reported leftover equals the order's quantity; the opposite side shrinks by exactly the executed quantity; the own side grows by exactly the leftover for a limit order and not at all for a market order.",
  "all valid histories and incoming orders",
  "needs arithmetic identities over arbitrary queues",
  [OB+"process_limit_order",OB+"process_market_order"])
p("The book never crosses by limit orders",
  "If best bid < best ask before process_limit_order / modify_order / cancel / remove-any / market order then best bid < best ask afterwards.",
  "all valid histories made of matching requests",
  "depends on all book shapes",
  [OB+"process_limit_order",OB+"modify_order"])
p("Every limit order trades or rests",
  "After process_limit_order with a positive quantity, the order has been executed completely, or the unexecuted quantity rests under its id.",
  "all books, all i64 limit prices including the extremes",
  "the order is silently dropped only when the opposite side is empty and the limit equals the sentinel price",
  [OB+"process_limit_order",HB+"trade_limit_order"])
p("Cancel removes exactly one order",
  "cancel_order(id) returns Some iff id rests; then only that order disappears and all other orders keep side, price, quantity and relative order; if id does not rest, nothing changes.",
  "all valid histories, all ids",
  "frame condition over all other orders",
  [OB+"cancel_order",HB+"cancel_order",LV+"cancel_order"])
p("Modify keeps or loses priority as documented",
  "modify_order at the same price changes only that order's quantity and keeps its queue position; at a new price it behaves exactly like cancel followed by a fresh limit order with the same id; an unknown id changes nothing and returns None.",
  "all valid histories, ids, prices, positive quantities",
  "frame and ordering conditions over all books",
  [OB+"modify_order",HB+"change_quantity"])
p("Remove-any takes the youngest quantity at one price",
  "remove_order(price, q, side) terminates, removes min(q, resting quantity at the price) from the youngest orders first, returns the unremoved part, leaves all other prices untouched and drops the level when it becomes empty.",
  "all valid books, prices and quantities",
  "termination and LIFO frame conditions range over all queues",
  [OB+"remove_order",HB+"remove_order"])
p("Zero-quantity orders do not break the book",
  "With zero-quantity orders (change_quantity to 0, zero-quantity limit orders or snapshot rows) the index stays coherent, remove_order terminates and levels disappear when their quantity is removed.",
  "all u64 quantities including 0",
  "needs the specific zero cases plus later operations",
  [HB+"change_quantity",HB+"remove_order",HB+"cancel_order",LV+"trade"])
p("Snapshot decomposition reaches the snapshot",
  "After decomposed_orders_with_update the resting quantity at every price of each side is the snapshot's (0 for prices not listed), the emitted orders are the per-price differences (one add or one remove-any per changed price, none for unchanged prices).",
  "all valid books and snapshots with distinct prices and positive quantities",
  "ranges over all pairs of book and snapshot",
  [OB+"decomposed_orders_with_update",HB+"decomposed_orders_with_update"])
p("Decomposed orders replay",
  "Applying the orders emitted by decomposed_orders_with_update to any other book with the same per-price quantities produces a book with the same per-price quantities as the snapshot.",
  "all pairs of level-equal books, all valid snapshots",
  "relational property over pairs of books",
  [HB+"decomposed_orders_with_update",HB+"add_limit_order",HB+"remove_order"])
p("L2 snapshot update makes the book equal to the snapshot",
  "After update_from_quote_snapshot / update_from_trade_quote_snapshot on an L2 book (one order per level) the level list equals the snapshot's rows and the book invariants hold; surviving levels keep their order id.",
  "all L2 books, all snapshots with distinct prices and positive quantities",
  "ranges over all book/snapshot pairs",
  [OB+"update_from_quote_snapshot",OB+"update_from_trade_quote_snapshot",HB+"update_l2_snapshot"])
p("L2 snapshot update is exact on any book and any feed snapshot",
  "update_from_quote_snapshot leaves total quantity equal to the sum of the snapshot and creates no level for empty (zero-quantity) snapshot rows, also on books holding several orders per level.",
  "all books and snapshots, including multi-order levels and zero rows as sent by the exchange",
  "the failing cases need multi-order levels or padded rows",
  [HB+"update_l2_snapshot"])
p("Wrong instrument is rejected without effect",
  "update_from_quote_snapshot / update_from_trade_quote_snapshot with an id different from the book's returns Err and leaves the book unchanged.",
  "all books, ids and snapshots",
  "universally quantified no-effect condition",
  [OB+"update_from_quote_snapshot",OB+"check_id"])
p("Virtual order ids are never reused",
  "All order ids created by snapshot updates and decompositions in one book's life are pairwise distinct and increasing.",
  "all histories with fewer than 2^64 virtual ids",
  "history property",
  ["trading-engine/src/types/base.rs: VirtualOrderId::next_id",OB+"decomposed_orders_with_update"])
p("Level snapshots are sorted and complete",
  "ask_level_snapshot / bid_level_snapshot list every occupied price exactly once in increasing order with the right quantity and order count.",
  "all valid histories",
  "ranges over all books",
  [OB+"ask_level_snapshot",HB+"to_level_snapshot"])
p("eq_level decides level equality",
  "eq_level(a, b) returns true iff both books have the same per-price quantity at every price; in particular it is symmetric.",
  "all pairs of valid books",
  "one-directional loop: correctness in the other direction rests on the total-quantity invariant",
  [OB+"eq_level",HB+"eq_level"])
p("OrderBook::default is a usable empty book",
  "A book built with Default accepts the same requests as one built with initialize_with_id.",
  "all first requests",
  "derived Default gives both halves side Ask and best price 0",
  ["trading-engine/src/orderbook/mod.rs: OrderBook (derive Default)","trading-engine/src/orderbook/half_book.rs: HalfBook (derive Default)"])

NC="trading-engine/src/utils/numeric_converter.rs: "
TS="trading-engine/src/types/timestamp.rs: "
p("Digit fields read back their number",
  "parse_under8/16/32 on n ASCII digits return the number written, whatever bytes follow the field in memory, never panic and stay inside the allocation when it extends over the 8/16/32 byte read.",
  "all widths 1..32, all numbers, all surrounding memory, both build profiles",
  "10^32 values times arbitrary trailing bytes; the SWAR masks need a proof",
  [NC+"parse_under8",NC+"parse_under16",NC+"parse_under32"])
p("Decimal points are removed",
  "parse_under*_with_floating_point on i digits, a point and d decimals return the number in units of the last decimal place.",
  "all splits i/d with total width up to 18, all numbers, all surrounding memory",
  "depends on every combination of width, point position and trailing memory",
  [NC+"parse_under8_with_floating_point",NC+"parse_under16_with_floating_point",NC+"parse_under32_with_floating_point"])
p("An IntegerConverter reads the field of its configuration",
  "For every configuration accepted by IntegerConverter::new, to_u64/to_i64 of a field written in that format return its value (truncated to the integer part if drop_decimal_point).",
  "all configurations, values, padding bytes and surrounding memory",
  "configurations times values",
  [NC+"IntegerConverter::new",NC+"to_u64",NC+"to_i64"])
p("The sign column decides the sign",
  "For signed configurations to_i64 returns plus or minus the magnitude according to the first byte ('0' or '+' positive, '-' negative).",
  "all signed configurations and all bytes",
  "ranges over all bytes and magnitudes",
  [NC+"to_i64"])
p("Unchecked conversions agree with the checked ones",
  "to_u64_unchecked, to_nonnegative_i64_unchecked, to_u32_unchecked and to_long_u64_unchecked return what to_u64/to_i64 return on the same field.",
  "all configurations and all byte contents",
  "equivalence of two implementations over all inputs",
  [NC+"to_u64_unchecked",NC+"to_u32_unchecked",NC+"to_long_u64_unchecked",NC+"to_nonnegative_i64_unchecked"])
p("Clock fields are read and rolled over by whole days",
  "parse_hhmmssuuuuuu of HHMMSSuuuuuu returns date + time of day + offset + k days with the least k >= 0 such that the result is later than the previous timestamp minus 15 hours, and advances the stored date by the same k days; it always terminates.",
  "all times of day, dates, previous timestamps, offsets without u64 overflow",
  "a loop with state carried from message to message",
  [NC+"parse_hhmmssuuuuuu",TS+"DateUnixNanoGenerator"])
p("A dense stream is stamped with its true times",
  "For every stream of messages in time order with gaps of at most nine hours, every message gets exactly its send time (plus the configured offset), across any number of midnights.",
  "all streams of any length",
  "history property over unbounded streams",
  [NC+"parse_hhmmssuuuuuu",TS+"DateUnixNanoGenerator::increment"])
p("Every stream is stamped with its true times",
  "The previous property without the bound on gaps, and for messages slightly out of order across midnight.",
  "all streams",
  "history property",
  [NC+"parse_hhmmssuuuuuu"])
p("Seoul clock times become UTC unix nanoseconds",
  "With TimeStampConverter for KRX the returned u64 is the Unix time of the instant whose Seoul wall-clock time is in the message.",
  "all times of day and dates",
  "relation to the calendar/time zone; the repository's tests encode the implementation's own answer",
  [NC+"TimeStampConverter",NC+"parse_hhmmssuuuuuu"])
DQ="trading-engine/src/data/krx/derivative_quote.rs: "
DT="trading-engine/src/data/krx/derivative_trade.rs: "
SQ="trading-engine/src/data/krx/stock_quote.rs: "
CK="trading-engine/src/data/checker.rs: "
p("KRX derivative quote messages are decoded",
  "For every quote message laid out as documented (header, five or ten levels, totals, end keyword) and every accepted level cut k, to_quote_snapshot returns a snapshot with the message's ISIN, its clock time, and exactly its first k levels (prices in the decimals of the product, quantities, order counts), whatever lies behind the payload in memory. A cut is accepted iff it is at most the number of levels.",
  "all headers, prices, volumes, counts, cuts, clocks, surrounding memory, both build profiles",
  "the value space is 10^400; unit tests decode a handful of recorded packets",
  [DQ+"IFMSRPD0034",DQ+"IFMSRPD0035","trading-engine/src/data/krx/unroll_macro.rs: parse_unroll!","trading-engine/src/data/krx/krx_converter.rs: get_krx_derivative_converter"])
p("KRX derivative trade+quote messages are decoded",
  "The same for IFMSRPD0037/0038: also trade price, quantity, aggressor code ('0' undefined, '1' sell, else buy) and, if asked for, the cumulative quantity.",
  "all messages, cuts, both settings of with_cum_trd_qnt",
  "value space; field offsets",
  [DT+"IFMSRPD0037",DT+"IFMSRPD0038"])
p("KRX derivative trade messages are decoded",
  "IFMSRPD0036: to_trade_data and to_trade_data_buffer return the message's ISIN, time, price, quantity, side and cumulative quantity.",
  "all messages and product formats",
  "value space",
  [DT+"IFMSRPD0036::to_trade_data",DT+"IFMSRPD0036::to_trade_data_buffer"])
p("KRX stock quote messages are decoded",
  "IFMSRPD0002/0003: the ten levels' prices, quantities and LP quantities are the message's.",
  "all messages, cuts, with and without LP columns",
  "value space",
  [SQ+"IFMSRPD0002",SQ+"IFMSRPD0003"])
p("A well-framed payload never panics a parser",
  "For every byte string of the right length ending in 0xFF, each parser returns: Ok with the ISIN in columns 17-28 if these are 12 ASCII characters without blank or tab, Err otherwise. No panic, no read outside the allocation.",
  "all byte contents (not only digits), all level cuts, all surrounding memory",
  "256^n payloads",
  [DQ+"to_quote_snapshot",DT+"to_trade_quote_snapshot",SQ+"to_quote_snapshot","trading-engine/src/types/id/isin_code.rs: IsinCode::new"])
p("A badly framed payload is reported as an error",
  "A payload of the wrong length or without the end keyword makes every parser return Err.",
  "all byte strings",
  "all lengths and contents",
  [CK+"is_valid_krx_payload"])
p("Parsing into a buffer equals parsing afresh",
  "to_quote_snapshot_buffer succeeds, fails and advances the clock exactly as to_quote_snapshot; on success the first k levels and all other fields of the buffer are those of the fresh snapshot. After any session of messages into one buffer it shows the last good message.",
  "all payloads, all buffers large enough, all sessions",
  "history property over arbitrary payloads",
  [DQ+"to_quote_snapshot_buffer",SQ+"to_quote_snapshot_buffer"])
p("A buffer's effective levels and converters are those of its last message",
  "After a buffer variant returns Ok, effective_ask_data/effective_bid_data are the levels of that message, and the buffer's converters describe the format of its prices.",
  "all messages and buffers",
  "depends on the buffer's history",
  ["trading-engine/src/data/quote.rs: effective_ask_data","trading-engine/src/data/trade_quote.rs: TradeQuoteSnapshot",DT+"IFMSRPD0038::to_trade_quote_snapshot_buffer"])
p("A level cut keeps the first levels",
  "Parsing with cut k gives the snapshot of the whole-message parser with both sides truncated to k levels, and the same clock state.",
  "all payloads, cuts",
  "all payloads",
  [DQ+"with_quote_level_cut",DT+"with_quote_level_cut"])
p("Applying a quote message to the order book makes the book show the message",
  "Decoding a derivative quote message and passing the snapshot to update_from_quote_snapshot leaves a book whose levels are exactly the first k levels of the message.",
  "all messages with distinct prices and positive volumes, all reachable books with at most one order per level",
  "composition over all messages and all book histories",
  [DQ+"to_quote_snapshot","trading-engine/src/orderbook/mod.rs: update_from_quote_snapshot"])
SPQ="trading-engine/src/spinqueue.rs: "
p("The spin queue has no data race",
  "With one producer and any number of workers with distinct identities, each touching the datum only between a get_mut/get that returned Some and the matching notify_all_workers/work_done, no two threads ever access the datum unsynchronised.",
  "all interleavings, all stale relaxed-coherence reads the release/acquire memory model permits, all history lengths, all data types",
  "races depend on the schedule and on weak-memory reorderings a test machine does not produce",
  [SPQ+"DataSpinQueue::get_mut",SPQ+"get",SPQ+"notify_all_workers",SPQ+"work_done"])
p("Producer and workers exclude each other",
  "While the producer is between get_mut = Some and notify_all_workers, no worker is between get = Some and work_done.",
  "all schedules and history lengths",
  "schedule-dependent",
  [SPQ+"ready_to_update",SPQ+"ready_to_work"])
p("Every published item reaches every worker exactly once, in order",
  "The k-th item a registered worker takes is the k-th published item; it is never skipped, taken twice or overwritten before work_done; get_mut returns Some only when every worker has finished every item.",
  "all schedules, histories, worker sets of up to 16",
  "history and schedule property",
  [SPQ+"get",SPQ+"notify_all_workers",SPQ+"work_done"])
p("The spin queue cannot deadlock",
  "From every reachable contract-keeping state the workers alone can finish all published items, and then get_mut can succeed; a waiting item can be taken at once by its worker.",
  "all reachable states",
  "needs a path from every reachable state",
  [SPQ+"DataSpinQueue"])
p("Queue construction accepts exactly the valid worker sets",
  "WorkerId::new accepts exactly 0..=15; DataSpinQueue::new fails iff an identity repeats; queues never hand out null pointers.",
  "all ids and id lists, both build profiles",
  "all inputs",
  [SPQ+"WorkerId::new",SPQ+"DataSpinQueue::new",SPQ+"Default for DataSpinQueue"])
p("work_done affects only its own worker",
  "work_done by one identity clears that worker's pending flag and leaves every other worker's as it was.",
  "all status words and all pairs of identities",
  "all bit patterns",
  [SPQ+"work_done",SPQ+"WorkerId"])
p("Only registered workers get items, and only published ones",
  "An identity the queue was not built with never gets an item; the initial datum is delivered like a published one.",
  "all schedules",
  "history property",
  [SPQ+"get",SPQ+"DataSpinQueue::new"])
p("The queue is safe under any use of its safe API",
  "Because get_mut/get are safe functions, no use of them (shared identities, writes after notification, two producers) can race.",
  "all call histories",
  "schedule property; the unsafe dereference is in client code",
  [SPQ+"DataSpinQueue"])
CNT="trading-engine/src/utils/counter.rs: "
TMR="trading-engine/src/utils/timer.rs: "
TSP="trading-engine/src/types/timestamp.rs: "
TBA="trading-engine/src/types/base.rs: "
p("Counters hand out every number once",
  "n calls of next by any threads return start, start+1, ... each exactly once (errors beyond the end); unbounded counters never repeat within 2^64 calls; VirtualOrderId::next_id counts up by one.",
  "all starts, ends, numbers of calls, thread assignments",
  "concurrent history",
  [CNT+"CounterUsize::next",CNT+"CounterU64::next",CNT+"UnboundedCounterUsize::next",TBA+"VirtualOrderId::next_id"])
p("An exhausted counter stays exhausted",
  "Once next has returned Err it never returns Ok again.",
  "all numbers of calls",
  "2^64 calls",
  [CNT+"CounterU64::next"])
p("Local date and time text is correct",
  "For every nanosecond timestamp and UTC offset of up to a day, convert_unix_nano_to_date_and_time prints the Gregorian date and time of the shifted instant with fixed-width fields.",
  "all 2^64 timestamps, offsets -24..24, both build profiles",
  "2^64 timestamps over 584 years",
  [TMR+"convert_unix_nano_to_date_and_time",TMR+"days_to_date",TMR+"is_leap_year",TMR+"days_in_month"])
p("Local time text is correct for every offset and instant",
  "The same for instants whose local time is before 1970 and for offsets beyond a day.",
  "all i32 offsets",
  "boundary of the type",
  [TMR+"convert_unix_nano_to_date_and_time"])
p("Clock components of a timestamp",
  "time_components_from_unix_nano returns hour, minute, second and millisecond of the UTC day, in range.",
  "all 2^64 timestamps",
  "2^64 timestamps",
  [TMR+"time_components_from_unix_nano"])
p("Timestamp differences are exact",
  "diff_in_* return the exact signed difference in the unit before conversion to floating point.",
  "all pairs of timestamps, all units",
  "2^128 pairs",
  [TSP+"diff_in_nanos",TSP+"diff_in_days",TSP+"div_rem"])
p("Average trade price is the volume-weighted mean",
  "average_trade_price divides the traded value by the traded volume, so it lies between the lowest and highest price.",
  "all trade histories",
  "all histories",
  [TBA+"TradeHistory::average_trade_price"])
IDM="trading-engine/src/types/id/mod.rs: "
LGR="trading-engine/src/logger.rs: "
p("Interned instrument ids are equal iff the instruments are",
  "Over any history of InstId::new, deserialize and default by any threads: no call panics, get_id returns what was asked for and never changes, two ids compare equal iff symbol and venue are equal, and memory is leaked once per distinct instrument.",
  "all histories of calls, all symbols and venues",
  "process-wide history property",
  [IDM+"InstId::new",IDM+"Deserialize for InstId",IDM+"Default for InstId",IDM+"PartialEq for InstId"])
p("ISIN codes are twelve visible ASCII characters",
  "IsinCode::new accepts exactly twelve ASCII bytes without blank or tab, keeps them, compares equal to exactly that text; every code's as_str is valid UTF-8; currency codes are valid and distinct.",
  "all byte strings",
  "256^n inputs",
  ["trading-engine/src/types/id/isin_code.rs: IsinCode","trading-engine/src/utils/checkers.rs: is_ascii","trading-engine/src/types/enums.rs: Currency::as_isin_code"])
p("A ticker is the text it was made from",
  "Ticker::new accepts texts of at most 32 bytes, as_str returns the text, tickers are equal iff the texts are.",
  "all byte strings",
  "256^n inputs",
  ["trading-engine/src/types/id/ticker.rs: Ticker"])
p("After shutdown the log is complete",
  "Once the logging thread has ended after Close, the selected files hold the text of every message sent before Close exactly once, in sending order, one segment per selected file; and Close does end the thread.",
  "all message sequences of all threads, all interleavings with the logging thread, all clock readings, any buffer boundaries",
  "schedule, timing and size dependent",
  [LGR+"LOG_SENDER",LGR+"Logger::finalize",LGR+"LogMessage"])
p("A crash leaves a prefix of the log",
  "At any byte at which the process dies the files hold a prefix of the log text, laid out over the first selected files in order.",
  "all histories, all crash points, also failing opens and clock steps",
  "crash points",
  [LGR+"LOG_SENDER"])
p("A flushing log call reaches the file",
  "When a flushing_log_* message has been handled its text is in the file.",
  "all texts",
  "crash points",
  [LGR+"flushing_log_fn_json!"])
p("The logger's memory is bounded",
  "The text queued in memory stays within LOG_MESSAGE_BUFFER_SIZE characters.",
  "all histories",
  "unbounded histories",
  [LGR+"LOG_MESSAGE_BUFFER_SIZE"])
p("The level filter",
  "A log call sends its message iff its level is at most the maximum, and changes nothing otherwise; the stored maximum always decodes.",
  "all levels, all system states",
  "all states",
  [LGR+"log_fn_json!",LGR+"LogLevel"])
p("Logging never disturbs the caller",
  "A log call never panics, and an accepted message is written.",
  "all histories, including calls during and after shutdown",
  "shutdown races",
  [LGR+"log_fn_json!",LGR+"LoggerGuard"])
p("The logger survives clock adjustments",
  "No sequence of clock readings stops the logging thread.",
  "all clock readings, both build profiles",
  "system clock steps",
  [LGR+"LOG_SENDER"])
p("The console shows the log",
  "With console reporting on, the printed text is the log text.",
  "all histories",
  "history property",
  [LGR+"CONSOLE_REPORT"])
TCK="trading-engine/src/feature/tick.rs: "
NCV="trading-engine/src/utils/numeric_converter.rs: "
WV="trading-engine/src/feature/weighted_valuation.rs: "
p("Normalised prices keep the order and value of the book prices",
  "normalized_f64_from_i64 turns a book price into the decimal number it stands for up to relative error 2^-51, larger book prices never become smaller floats, and distinct prices stay distinct (equal prices equal).",
  "all i64 prices, all converters with at most 18 (15 for strictness) decimals, both build profiles",
  "2^64 prices times rounding",
  [NCV+"normalized_f64_from_i64",NCV+"to_f64_from_i64"])
p("The order flow imbalance is the book formula",
  "After any feed of snapshots, ofi between two features is exactly the order flow imbalance of the two latest snapshots' integer levels.",
  "all feeds of quote and trade-quote snapshots with up to 15-digit prices and quantities, all levels",
  "rounding and unbounded feeds",
  [TCK+"SnapshotQuotes::ofi",TCK+"bid_ofi",TCK+"ask_ofi",TCK+"update_quote_snapshot",TCK+"update_trade_quote_snapshot"])
p("A level argument never panics",
  "ofi with a level that is zero or beyond what either feature holds is an error, not a panic, for every feature value the API can make.",
  "all features, all levels",
  "all states",
  [TCK+"bid_ofi",TCK+"ask_ofi",TCK+"with_capacity"])
p("A feature shows the latest snapshot",
  "After any feed the feature holds, level by level, the converted prices and quantities, timestamp, system time and converter of the latest snapshot that had enough levels.",
  "all feeds",
  "unbounded feeds",
  [TCK+"new_from_quote_sanpshot",TCK+"update_quote_snapshot",TCK+"update_trade_quote_snapshot"])
p("Best and mid price",
  "best_ask_price / best_bid_price are the prices of the first level with a quantity; the mid price exists iff both do and lies between them.",
  "all feeds",
  "rounding and unbounded feeds",
  [TCK+"best_ask_price",TCK+"best_bid_price",TCK+"mid_price"])
p("The vwap is the volume weighted average price",
  "vwap returns the volume weighted average price of all levels shown, up to rounding, whenever there is any volume.",
  "all feeds",
  "accumulated rounding",
  [TCK+"vwap"])
p("The logarithmic imbalance is finite",
  "ln_ofi returns a finite number for every pair of snapshots.",
  "all feeds",
  "boundary values of floats",
  [TCK+"ln_ofi",TCK+"bid_ln_ofi",TCK+"ask_ln_ofi"])
p("A moving average stays within its observations",
  "After any updates the EWMA lies between the smallest and the largest value seen, up to relative error 2^-50 per update.",
  "all update histories of any length with time stamps from creation on, all decay factors in [0,1]",
  "accumulated rounding over unbounded histories",
  [WV+"EWMA::update","trading-engine/src/feature/weight.rs: TimeSeriesWeight::apply"])
p("A moving average decays by the time since the last update",
  "Each EWMA / EWMS update multiplies the old value by weight^(time since the previous update), for any time stamps.",
  "all update histories",
  "history property",
  [WV+"EWMA::update",WV+"EWMS::update"])
CT="quantlib/src/time/calendar_trait.rs: "
JC="quantlib/src/time/jointcalendar.rs: "
US="quantlib/src/time/calendars/unitedstates.rs: "
KR="quantlib/src/time/calendars/southkorea.rs: "
HOL="quantlib/src/time/holiday.rs: "
p("Leap years and month ends are Gregorian",
  "is_leap_year is the Gregorian rule and last_day_of_month is the last day of that month.",
  "all years -9999..9999, all months",
  "all years",
  [CT+"is_leap_year",CT+"last_day_of_month"])
p("Business-day status belongs to the point in time",
  "Two OffsetDateTimes of the same instant get the same answer from is_business_day and is_weekend.",
  "all calendars, all dates and offsets",
  "all instants and offsets",
  [CT+"is_business_day",CT+"_is_holiday","quantlib/src/time/calendars/nullcalendar.rs: is_weekend"])
p("Following finds the first business day",
  "adjust with Following returns the first business day on or after the date, at the same time of day, within a number of days that depends only on the holidays added by hand; at the end of the representable dates it may panic but never answers wrongly.",
  "all calendars (joint ones, edited ones), all dates",
  "every date of 20000 years under every edit history",
  [CT+"adjust",CT+"adjust_following"])
p("Preceding finds the last business day",
  "adjust with Preceding returns the last business day on or before the date, under the same terms.",
  "all calendars, all dates",
  "every date, every edit history",
  [CT+"adjust",CT+"adjust_preceding"])
p("Modified conventions stay in the month",
  "Modified Following (Preceding) returns the Following (Preceding) day if it lies in the same month and the other one otherwise; the result is a business day, and in the month whenever the month has a business day (with no holidays added by hand every month has).",
  "all calendars, all dates",
  "every date, every edit history",
  [CT+"adjust_modified_following",CT+"adjust_modified_preceding"])
p("Adjusting is idempotent and monotone",
  "A business day is not moved; adjusting an adjusted date changes nothing; a later date is never adjusted to an earlier one than an earlier date.",
  "all calendars, conventions, pairs of dates",
  "all pairs of dates",
  [CT+"adjust"])
p("Business days are never far away",
  "Among any 7 consecutive days (14 for a joint calendar) one is a business day if no holidays were added by hand; each added holiday lengthens the bound by as much.",
  "all calendars and dates",
  "every date of 20000 years",
  [CT+"is_business_day",KR+"is_holiday",US+"is_holiday"])
p("Adding and removing holidays",
  "After any history of add_holidays and remove_holidays a day's status is what the last call about that day said (weekends aside).",
  "all histories of calls",
  "unbounded histories",
  [CT+"add_holidays",CT+"remove_holidays",CT+"_is_holiday"])
p("A joint calendar is closed iff one of its calendars is",
  "JointCalendar is closed exactly when one of its calendars is; order and repetition do not matter; its own is_business_day and the trait's agree; it cannot be made empty.",
  "all lists of calendars, all dates",
  "all combinations",
  [JC+"JointCalendar::new",JC+"is_holiday",JC+"is_business_day"])
p("US settlement and Federal Reserve holidays",
  "UnitedStates(Settlement) and (FederalReserve) are closed exactly on weekends and on the published holidays (fixed days with their observance rules, n-th Mondays and Thursdays, with their years of introduction).",
  "all dates",
  "every date of 20000 years",
  [US+"is_holiday_for_settlement",US+"is_holiday_for_federal_reserve",US+"is_washington_birthday",US+"is_memorial_day",US+"is_labor_day",US+"is_columbus_day",US+"is_veterans_day",US+"is_juneteenth"])
p("NYSE, government bond and SOFR holidays",
  "UnitedStates(Nyse), (GovernmentBond) and (Sofr) are closed exactly on weekends, the published holidays including Good Friday, and the listed closings.",
  "all dates",
  "every date; Easter by computation over all years",
  [US+"is_holiday_for_nyse",US+"is_holiday_for_government_bond",US+"is_holiday_for_sofr",HOL+"good_friday"])
p("The NYSE closes on election days",
  "UnitedStates(Nyse) is closed on election day (the Tuesday after the first Monday of November) of every year up to 1968 and of 1972, 1976 and 1980.",
  "all years",
  "all years",
  [US+"is_holiday_for_nyse"])
p("South Korean holidays",
  "SouthKorea(Settlement) and (Krx) are closed exactly on weekends, fixed holidays, the listed temporary ones and the three days of Lunar New Year and of Chuseok and Buddha's birthday of every year (KRX also on the last weekday of the year); the lunar tables give one of each a year, whole lunar months apart.",
  "all dates",
  "every date; three tables of 100-150 entries each",
  [KR+"is_holiday",KR+"is_lunar_newyear",HOL])
p("display_holidays lists the holidays of an interval",
  "display_holidays prints, in increasing order, exactly the holidays among the start date and the same times of the following days up to the end (weekends only if asked).",
  "all calendars, all intervals",
  "unbounded intervals",
  [CT+"display_holidays"])
p("Adjusting does not depend on the offset a date is written in",
  "Two OffsetDateTimes of the same instant are adjusted to the same instant, under every convention.",
  "all calendars with an offset of their own, all conventions, all offsets",
  "all instants and offsets",
  [CT+"adjust",CT+"adjust_modified_following"])
p("Actual/365, /360 and /364 year fractions",
  "year_fraction under these conventions is the f32 nearest to full days between the dates over 365 (360, 364); it is an error iff the start is after the end (or the convention is Dummy); it grows with the end and shrinks with the start.",
  "all calendars, all pairs of dates",
  "all pairs of dates, rounding",
  [CT+"year_fraction",JC+"year_fraction"])
p("30/360 year fractions are the published ones",
  "Thirty360 and StreetConvention count days by the published 30/360 rules, including the rules for the 31st.",
  "all pairs of dates",
  "all pairs of dates",
  [CT+"year_fraction"])
p("Actual/Actual (ISDA) year fractions",
  "ActActIsda is, up to rounding, the sum over all calendar years of the days that fall into the year over the length of the year.",
  "all pairs of dates with the same offset, over any number of years",
  "unbounded number of years, accumulated rounding",
  [CT+"year_fraction"])
p("Time differences",
  "get_time_difference is, up to rounding, the sum over all years of the time that falls into the year over its length: positive for a later date, additive, antisymmetric.",
  "all pairs and triples of instants with the same offset",
  "all pairs of instants, accumulated rounding",
  [CT+"get_time_difference"])
SA="quantlib/src/utils/string_arithmetic.rs: "
CV="quantlib/src/time/conventions.rs: PaymentFrequency::"
SC="quantlib/src/instruments/schedule.rs: "
p("Period strings are read as written",
  "A well-formed period string (numbers each followed by Y, M, W, D, h, min or sec) is read as exactly those numbers of those units; a number that does not fit is a panic; a malformed string is rejected.",
  "all strings: any number of units, numerals of any length",
  "infinitely many strings, including overlong numerals and junk",
  [SA+"add_period",SA+"sub_period"])
p("Adding months and years",
  "Adding n months (12 n for n years) gives the same day of the month n months later, or the last day of that month if it is shorter; it panics exactly if the year leaves -9999..9999; adding more months never gives an earlier date.",
  "all dates, times and offsets, all n below 2^31",
  "all dates, all month ends, all amounts",
  [SA+"add_period",SA+"from_i32_to_month",SA+"from_month_to_i32"])
p("Adding and subtracting weeks, days, hours, minutes, seconds",
  "add_period and sub_period with such a unit move the date-time by exactly that length, panic exactly if the date leaves the range, and undo each other.",
  "all date-times, all n",
  "all date-times and amounts",
  [SA+"add_period",SA+"sub_period"])
p("Compound periods",
  "A period of several units is applied unit by unit from left to right.",
  "all well-formed strings of any number of units, all date-times",
  "infinitely many combinations of units",
  [SA+"add_period"])
p("Subtracting months and years",
  "Subtracting n months gives the same day n months earlier (or the last day of that month), and undoes adding them when the day is at most 28.",
  "all dates, all n below 2^31",
  "the result is wrong only beyond a distance that depends on the month",
  [SA+"sub_period"])
p("Periods on dates agree with periods on date-times",
  "add_period_date and sub_period_date give the date of what add_period and sub_period give for a date-time on that date.",
  "all dates, all period strings of years, months, weeks and days",
  "all dates and strings",
  [SA+"add_period_date",SA+"sub_period_date"])
p("Period strings as fractions of a year",
  "from_period_string_to_float is the sum of the numbers times their units' lengths in years, within a relative error of (1 + 2^-24)^(units+3) - 1; it is an error exactly if nowhere in the string a digit is followed by a unit.",
  "all strings; all well-formed strings of up to 8388000 units and 2^70 years",
  "all numerals, accumulated f32 rounding",
  [SA+"from_period_string_to_float"])
p("Multiples of a payment frequency",
  "The string for n steps of a frequency moves a date by n times the frequency's step; the dates are unique, increasing in n, and as many steps as there are payments in a year make a year.",
  "all frequencies, dates, n up to 3*10^8",
  "all dates and multiples",
  [CV+"to_string_with_multiple",CV+"as_str",CV+"as_real",SA+"add_period"])
p("Forward schedules",
  "build_schedule generating forward returns the coupons between the successive steps from the effective date, adjusted by the convention: they join without gap or overlap, start on the effective date and end at maturity, fix on business days fixing_gap days before the start, pay payment_gap days after the end.",
  "all effective dates, maturities, calendars, conventions, frequencies, gaps",
  "schedules of any length over any calendar, including stubs and month ends",
  [SC+"build_schedule"])
p("When build_schedule fails",
  "build_schedule refuses negative gaps and the Dummy convention; otherwise, generating forward away from the ends of the calendar, it always answers, and refuses exactly if some adjusted coupon would be empty or reversed: never for Unadjusted, and for month frequencies under the modified conventions never unless a step falls before maturity in the maturity's month.",
  "all inputs away from the ends of the calendar",
  "termination and panics over all inputs",
  [SC+"build_schedule"])
p("Backward schedules",
  "What build_schedule returns generating backward is the schedule on the dates a whole number of steps before maturity, the first coupon starting on the effective date.",
  "all inputs away from the ends of the calendar",
  "schedules of any length over any calendar",
  [SC+"build_schedule",SA+"sub_period"])
p("Backward schedules of any length exist",
  "Generating backward gives a schedule whenever the effective date precedes maturity and no coupon is empty.",
  "all effective dates, maturities, calendars, conventions and frequencies in months",
  "fails only for schedules longer than one to two years",
  [SC+"build_schedule",SA+"sub_period"])
FI="quantlib/src/utils/find_index.rs: "
FN="quantlib/src/utils/find_index_ndarray.rs: "
ST="quantlib/src/math/interpolators/stepwise_interpolatior.rs: "
LI="quantlib/src/math/interpolators/linear_interpolator.rs: "
BI="quantlib/src/math/interpolators/bilinear_interpolator.rs: "
DV="quantlib/src/utils/distribute_value.rs: "
p("Binary search finds the documented index",
  "binary_search_index of a non-empty array always answers with an index in bounds; on a sorted array it is 0 below the first element, the last index from the last element on, and otherwise the i with v[i] <= x < v[i+1].",
  "arrays of any length over any ordered type (f32 with NaN included), all searched values",
  "arrays of any length; termination and bounds over all of them",
  [FI+"binary_search_index",FN+"binary_search_index_ndarray"])
p("Searching for many values agrees with searching for each",
  "vectorized_search_index of sorted values in a sorted array gives the list of what binary_search_index gives for each; it always answers for a non-empty array.",
  "arrays and lists of values of any length over any ordered type",
  "the scan carries its position from value to value; correctness is an invariant over the whole list",
  [FI+"vectorized_search_index_for_sorted_vector",FN+"vectorized_search_index_for_sorted_ndarray"])
p("Stepwise interpolators are built exactly from sorted knots",
  "StepwiseInterpolator1D::new accepts exactly a non-empty sorted domain with as many values; anything else is an error, never a panic.",
  "all domains and values of any length, over any ordered type",
  "arrays of any length",
  [ST+"StepwiseInterpolator1D::new","quantlib/src/util.rs: is_ndarray_sorted"])
p("Stepwise interpolation is the step function of its knots",
  "Between the first and the last knot the value is that of the last knot not after x; outside it is the given extrapolation value, or the nearest knot's if none is given, or an error if extrapolation is not allowed. Every constructed interpolator answers every x.",
  "all knots, values and x, over any ordered type",
  "arrays of any length, all x",
  [ST+"StepwiseInterpolator1D::interpolate",ST+"ConstantInterpolator1D"])
p("Vectorized stepwise interpolation agrees with interpolating each point",
  "The vectorized stepwise interpolation of sorted points gives the list of the single results, or an error if one of them is an error.",
  "all knots, values and sorted points",
  "the two branches differ by the number of points",
  [ST+"vectorized_interpolate_for_sorted_ndarray"])
p("Linear interpolators: construction and answers",
  "LinearInterpolator1D::new accepts exactly a sorted non-empty domain with as many values, is an error otherwise and never panics; every constructed interpolator answers every x without panicking.",
  "all knots and values, all x including NaN",
  "arrays of any length; NaN and edge positions",
  [LI+"LinearInterpolator1D::new",LI+"interpolate"])
p("Linear interpolation is close to the straight line",
  "Between two knots the result is finite and differs from the exact value of the straight line through them by at most 12 * 2^-24 * M + 2^-149 (1 + b - a), M bounding the values.",
  "all finite strictly sorted knots, finite values of magnitude up to 2^100 with slopes up to 2^100, all x inside",
  "a rounding error bound over all floats",
  [LI+"interpolate"])
p("Linear interpolation reproduces its knots",
  "At a knot the result is exactly the knot's value.",
  "all finite strictly sorted knots with finite values, every knot",
  "all floats",
  [LI+"interpolate"])
p("Vectorized linear interpolation agrees with interpolating each point",
  "The vectorized linear interpolation of sorted points gives the list of the single results, or an error if one of them is an error.",
  "all strictly sorted knots (two or more), all sorted points without NaN",
  "arrays of any length",
  [LI+"vectorized_interpolate_for_sorted_ndarray"])
p("Linear interpolation outside the knots",
  "Before the first and from the last knot on: flat gives the edge value, linear the continuation of the edge segment, anything else is an error.",
  "all sorted knots (two or more), all x outside",
  "all floats",
  [LI+"interpolate","quantlib/src/math/interpolator.rs: ExtraPolationType"])
p("Bilinear interpolators: construction and answers",
  "Both constructors accept exactly matching shapes with sorted knots, are an error otherwise and never panic; a constructed table answers every point without panicking.",
  "all tables of any size, all points including NaN",
  "tables of any size; NaN and edge positions",
  [BI+"BilinearInterpolator::new",BI+"new_from_rectangle_data",BI+"interpolate"])
p("Bilinear interpolation is close to the bilinear form",
  "Inside the table the result is finite and differs from the exact bilinear form of the cell by at most 25 * 2^-24 * M + 2^-148 (1 + b - a) + 2^-149 (1 + 1/(t2 - t1)).",
  "all finite tables of any size with values up to 2^50, all points inside",
  "an error bound through two stages of rounding over all floats",
  [BI+"interpolate"])
p("Bilinear interpolation at the t knots and beyond the edges",
  "At a t knot the result is that of the knot's own x interpolator; beyond the edges flat gives the edge interpolator's result, linear the continuation from the two outermost, anything else is an error; an error of an x interpolator that is used is an error.",
  "all t knots, x interpolators of any kind, all points",
  "all floats, tables of any size",
  [BI+"interpolate"])
p("Spreading a value touches only the neighbours of its location",
  "distribute_value_on_vector adds the whole value to the end entry if the location is at or beyond the end, otherwise the weighted shares to the two neighbours, and changes nothing else; different lengths are an error and change nothing; it never panics.",
  "vectors and grids of any length, all floats",
  "vectors of any length; in-place updates",
  [DV+"distribute_value_on_vector"])
p("Spreading a value keeps the total",
  "The two shares are within 8 * 2^-24 |value| + 2^-149 (1 + |value|) of value * (b - x)/(b - a) and value * (x - a)/(b - a); the vector's total grows by the value up to 2^-24 (2B + 8 |value|) + 2^-147, B bounding the entries, and the entries stay finite.",
  "all finite strictly sorted grids, entries and values up to 2^100, all finite locations",
  "a rounding error bound over all floats and vectors of any length",
  [DV+"distribute_value_on_vector"])
DD="quantlib/src/parameters/discrete_ratio_dividend.rs: "
MP="quantlib/src/parameters/market_price.rs: "
ED="quantlib/src/evaluation_date.rs: "
UT="quantlib/src/util.rs: "
p("Dates as yyyymmdd integers keep the order of days",
  "to_yyyymmdd_int of a date is year * 10000 + month * 100 + day; it orders and distinguishes exactly as the local calendar days do. min_offsetdatetime is the earlier point in time, the second if equal.",
  "all dates of all years, all times and offsets",
  "all pairs of dates",
  [UT+"to_yyyymmdd_int",UT+"min_offsetdatetime"])
p("The deduction ratio is the product over the dividends to come",
  "For dates on increasing days the ratio at T is the product of 1 - amount/spot over the dividends from the evaluation date on up to T's day, multiplied in order, 1 if there is none; days out of order are an error.",
  "dividend lists of any length, all evaluation dates, all T",
  "lists of any length, all dates; a dropping loop with two indices and an interpolation search lie between",
  [DD+"DiscreteRatioDividend::new",DD+"get_deduction_ratio",DD+"get_vectorized_deduction_ratio_for_sorted_datetime",MP+"get_dividend_deduction_ratio"])
p("A dividend object outlives its dividends",
  "When all ex-dividend dates are before the evaluation date, construction and update succeed and the ratio is 1; moving the evaluation date never panics for this. The dropping loop always ends.",
  "all dividend lists and evaluation dates",
  "all lists and dates",
  [DD+"DiscreteRatioDividend::new",DD+"update_evaluation_date",ED+"set_date"])
p("Bumping dividends changes exactly the amounts in the interval",
  "bump_date_interval adds the bump to the amounts on days in (date1, date2] and leaves the others at their value; yields and ratios follow; an empty interval is an error that changes nothing; after any history of bumps and dates, a new evaluation date gives the ratio of the yields then listed; ratios do not change with a bump of 0.",
  "all dividends, intervals, bumps and histories of calls",
  "histories of any length; all floats",
  [DD+"bump_date_interval",DD+"update_evaluation_date",DD+"get_dividend_ratio"])
p("A market price is rolled over exactly the dividends passed",
  "Moving the evaluation date forward multiplies the price by 1 - yield for the dividends after the market date up to the new date, moving back divides by it; told the same date again nothing changes; a price without dividend never changes.",
  "all prices, dividend lists and dates",
  "lists of any length, all dates",
  [MP+"update_evaluation_date"])
p("A price that goes back and forth in time comes back",
  "After any sequence of evaluation dates the price is the start price times the factors of the dividends between the first and the last date, within 2^-23 relatively for every dividend passed on the way; back at the start date it is the start price within that.",
  "all prices from 2^-50 to 2^50, yields in [0,1) that leave at least 2^-50, sequences of dates of any length (up to 2^22 dividends passed)",
  "an error bound over all floats and histories of any length",
  [MP+"update_evaluation_date"])
p("Setting the evaluation date reaches every observer exactly once",
  "After set_date, += or -= every observing price with a dividend has been rolled to the date once, even if it was added twice, every observing dividend has the ratios of that date, all other objects are unchanged; it succeeds while every observing dividend has a date to come; after any sequence of dates each price has followed all of them.",
  "any number of prices, dividends and observers, histories of any length",
  "histories and numbers of objects of any size",
  [ED+"set_date",ED+"notify_observers",ED+"AddAssign",ED+"SubAssign",ED+"add_marketprice_observer",ED+"add_dividend_observer"])
p("Price and deduction ratio count every dividend once",
  "The price at the evaluation date times the deduction ratio up to T does not depend on the evaluation date (up to 2^-22 relatively per dividend): every dividend is in one of the two.",
  "all dividend lists with yields in [0,1), all evaluation dates and T, all ways to get to the date",
  "two objects updated by different code paths over histories of any length",
  [MP+"update_evaluation_date",DD+"update_evaluation_date",DD+"get_deduction_ratio"])
VD="quantlib/src/data/vector_data.rs: "
ZC="quantlib/src/parameters/zero_curve.rs: "
p("Market data has a time for every value",
  "VectorData::new fails without dates and times, with another number of dates or times than values, and with dates but no market date; given dates, the times are the year fractions from the market date to each date, whatever times are passed; given only times it keeps them.",
  "all values, dates, times and market dates, lists of any length",
  "lists of any length, all dates",
  [VD+"VectorData::new"])
p("A later day has a later time",
  "Of two dates a day or more apart, at most 1000 years after the market date, the later one has the year fraction greater by at least 1/2048, both finite; the market date itself has 0.",
  "all dates, times of day and offsets of years from -9999 to 9999",
  "all pairs of dates against float rounding",
  ["quantlib/src/time/calendar.rs: get_time_difference",VD+"VectorData::new"])
p("A zero curve holds the rates it was given",
  "ZeroCurve::new fails for lists of different lengths, no value and times out of order; otherwise it caches strictly rising times of today, tomorrow, ..., 100 years on, and at each the rate on the line between the given points, flat outside, within 7/2^24.",
  "all evaluation dates, rates of any number (times and rates in a sane range)",
  "all dates and rate lists of any length; month ends, leap years and rounding lie between",
  [ZC+"ZeroCurve::new"])
p("Today's discount factor is 1, at the cached dates exp(-rate * time)",
  "On any curve, after any history of bumps, D(0) and D(evaluation date) are exactly 1; on the cached dates D is exp(-rate * time) within (1 + t)/2^20 relatively.",
  "all curves reachable by construction and bumps, all evaluation dates, any exp good to 2^-22",
  "histories of any length; error bound over all floats",
  [ZC+"get_discount_factor",ZC+"get_discount_factor_at_date",ZC+"bump_time_interval"])
p("Between the cached dates the discount factor is on the chord",
  "For every time from 0 to before the last cached one the factor is on the line between the neighbouring factors within (21+8t)/2^24; with rates between 0 and 10% it is between 2^-18 and 1.001.",
  "all reachable curves, all times in range",
  "error bound over all floats",
  [ZC+"get_discount_factor"])
p("The curve covers exactly 0 to 100 years",
  "A time below 0 or after the last cached one is an error, never an extrapolation; every date up to 100 years, that one included, has a factor.",
  "all reachable curves and times",
  "all curves and times",
  [ZC+"get_discount_factor",ZC+"ZeroCurve::new"])
p("A date in the past has no discount factor",
  "get_discount_factor_at_date for a day before the evaluation date is an error; for others it is the factor of the year fraction.",
  "all curves, evaluation dates and dates",
  "all pairs of dates",
  [ZC+"get_discount_factor_at_date"])
p("Discount factors between times chain",
  "The factor from t1 to t2 is D(t2)/D(t1) correctly rounded, exactly 1 from a time to itself, an error for times out of order or NaN; from a to b times from b to c is from a to c within 4/2^24.",
  "all reachable curves, all times",
  "error bound over all floats",
  [ZC+"get_discount_factor_between_times"])
p("Forward rates are the rates that give the discount factor",
  "The simple forward rate is (1/d - 1)/tau and the continuous one -ln d/tau, d the factor between; a flat curve gives its rate back; a rate over a short or empty interval is a number near the short rate; times out of order are an error.",
  "all reachable curves, times and dates, any exp and ln good to 2^-22",
  "error bound over all floats, dates and curves",
  [ZC+"get_forward_rate_between_times",ZC+"get_forward_rate_between_dates",ZC+"get_forward_rate_from_evaluation_date"])
p("A rate bump moves exactly the rates of the interval",
  "bump_time_interval adds the bump to the rates of cached times in (t1, t2], keeps the others at their value and recomputes factors; an open end is unbounded; reversed ends are an error that changes nothing; bumping by dates is bumping by their times.",
  "all reachable curves, intervals and bumps",
  "all floats and histories",
  [ZC+"bump_time_interval",ZC+"bump_date_interval"])
p("Many points at once are each point alone",
  "The vectorised discount factors for sorted times or dates and the vectorised short rates are, point by point, what the single calls give, an error if one of them is; the dummy curve discounts nothing.",
  "all reachable curves, sorted lists of any length",
  "lists of any length",
  [ZC+"get_vectorized_discount_factor_for_sorted_time",ZC+"get_vectorized_discount_factor_for_sorted_dates",ZC+"get_vectorized_short_rate_for_sorted_times",ZC+"dummy_curve"])
PP="quantlib/src/parameters/past_price.rs: "
RI="quantlib/src/parameters/rate_index.rs: "
BO="quantlib/src/instruments/bond.rs: "
BP="quantlib/src/pricing_engines/bond_pricer.rs: "
NR="quantlib/src/pricing_engines/npv_result.rs: "
KY="quantlib/src/pricing_engines/krx_yield_pricer.rs: "
KT="quantlib/src/instruments/ktbf.rs: "
KP="quantlib/src/pricing_engines/ktbf_pricer.rs: "
p("A recorded closing price is found again",
  "A price recorded for a day is the one found for that day and changes no other; asked at a time, it is the price of the local day until the close, and that of the next business day after it; the ordered lists are all entries, by date, whatever order the map iterates in.",
  "all histories of recordings, all times, offsets and calendars",
  "histories of any length and every iteration order of the hash map",
  [PP+"DailyClosePrice","quantlib/src/data/daily_value_data.rs: DailyValueData::insert"])
p("A bond has exactly one kind of rate",
  "Making a bond fails exactly unless one of fixed rate and rate index is given, and it keeps every argument; from conventions it has one row without amount per coupon of the schedule.",
  "all arguments, schedules of any length",
  "all schedules",
  [BO+"Bond::new",BO+"Bond::new_from_conventions"])
p("A bond's cash flows are what its rows pay",
  "get_cashflows is, for each day from the pricing day on, the sum of what the rows due then pay (the row's amount, else rate times the fraction of the period, else the floating coupon), plus 1 at maturity unless stripped; a half-year period at rate r pays exactly r/2; a due row that fails makes it fail.",
  "all bonds, schedules of any length, pricing dates",
  "schedules of any length, all dates",
  [BO+"Bond::get_cashflows"])
p("A floating coupon is its rate plus spread over the period",
  "A coupon fixed on or after the pricing date pays (forward rate over the tenor + spread) times the fraction; one fixed before pays the recorded rate instead, whatever the curve; without a recorded rate it still pays the rate of its period.",
  "all coupons, curves, records and dates",
  "error bound over all floats; all records",
  [RI+"RateIndex::get_coupon_amount"])
p("An overnight coupon compounds the rates of its sub-periods",
  "A coupon that has begun pays the product of 1 + (rate + spread) * fraction over its sub-periods less 1, recorded rates before the pricing date and forward rates after, within 7 units in the last place per period; one that has not begun pays the mean of the first and last forward rate; it always ends.",
  "coupons of any number of sub-periods (to 800000), all records and curves",
  "loops of any length over dates; error over all floats",
  [RI+"RateIndex::get_coupon_amount"])
p("A bond is worth its discounted future cash flows",
  "npv is the sum over cash flows after the pricing day of amount times discount factor, over the factor of the pricing day, within (n+2)/2^23 of the size; two iteration orders of the map differ by rounding only; failing cash flows or factors fail it.",
  "all bonds, curves and iteration orders, any number of cash flows (to 2^20)",
  "every iteration order of the hash map, error bound over all floats",
  [BP+"BondPricer::npv"])
p("A bond's detailed result agrees with its value",
  "npv_result has the value npv gives, and every cash flow once under 0, 1, 2, ... with probability 1; its expected coupons are, day by day, exactly the cash flows.",
  "all bonds, curves and iteration orders",
  "every iteration order of two hash maps",
  [BP+"BondPricer::npv_result",NR+"NpvResult::get_expected_coupon_amount"])
p("Pricing a bond does not panic",
  "Asking for the cash flows of a bond gives cash flows or an error.",
  "all bonds, curves and pricing dates",
  "all bonds and states",
  [BO+"Bond::get_cashflows"])
p("The future's virtual bond costs the present value at its yield",
  "It is the notional times c/b + ... + c/b^n + 1/b^n with b = 1 + yield/frequency within (15n+6)/2^24; at a yield equal to the coupon it costs the notional; it does not rise when the yield does, beyond rounding.",
  "all maturities (to 65536 coupons), coupons and yields in a sane range, any powi good to 2 ulp a factor",
  "sums of any length; error bound over all floats",
  [KT+"KtbfVirtualBond::npv"])
p("The yield price is that of the exchange's formula",
  "npv at a yield y is the sum over future cash flows of amount / (1+y/f)^periods from the next payment, over 1 + y/f times the fraction of the current period left, within (3n+29K+210)/2^24 of its size; a bond with nothing left is worth 0; the formula holds at every frequency.",
  "all bonds, iteration orders and yields in a sane range, any powf good to 2 ulp",
  "every iteration order of the hash map, error bound over all floats",
  [KY+"KrxYieldPricer::npv"])
p("The future is priced at the average yield of its basket",
  "A future is made exactly if every bond of its basket is priced at its maturity; its price is that of the virtual bond at the average of the yields of the basket, discounted on the borrowing curve, within rounding; every future made can be priced.",
  "baskets of any size, all curves, any yield finder",
  "baskets of any size, error bound over all floats",
  [KT+"KTBF::new",KP+"KtbfPricer::npv"])
CU="quantlib/src/currency.rs: "
NF="quantlib/src/utils/number_format.rs: "
SW="quantlib/src/instruments/plain_swap.rs: "
SP="quantlib/src/pricing_engines/plain_swap_pricer.rs: "
p("A currency is written and read back",
  "as_str of a currency is three capital letters, different for different currencies; reading it gives the currency back; any other text reads as NIL; two currencies are equal exactly if they are the same.",
  "all currencies, all texts",
  "all strings",
  [CU+"Currency"])
p("A currency pair is written and read back",
  "The reciprocal of a pair has its currencies swapped, and is its own inverse; a pair is read back from how it is written, whatever follows, and two pairs are written differently; reading panics only on text that does not have six bytes or cuts a character; a serialized pair is read back.",
  "all pairs, all byte strings",
  "all strings, of any length and encoding",
  [CU+"FxCode"])
p("Commas separate thousands",
  "Writing a number with commas keeps its sign, its digits and its decimals, and separates the digits left of the point in groups of three from the right; there is only one way to do so.",
  "all signs, digits of any length, decimals",
  "digits of any length",
  [NF+"write_number_with_commas"])
p("A swap is classified by its terms",
  "Making a swap gives IRS, CRS, FxSwap, FxForward or FxSpot exactly if the initial and final amounts, rate, index, schedules, currencies and dates are those of that kind, never two kinds, and an error if they fit none; it keeps every argument, and the pair is floating to fixed currency; from conventions the same with the schedules built.",
  "all terms, schedules of any length",
  "all combinations of terms, all dates, schedules of any length",
  [SW+"PlainSwap::new",SW+"PlainSwap::new_from_conventions"])
p("The fixed side pays what the terms say",
  "Its cash flows are, by point in time from the pricing day on: the initial amount received at the effective date, the final amount paid at maturity, and for every row minus rate times fraction times the initial amount (1 if there is none), added up; a failing fraction is an error.",
  "all swaps, schedules of any length, all pricing dates",
  "schedules of any length, rounding for all floats",
  [SW+"PlainSwap::get_fixed_cashflows"])
p("The floating side pays what the terms say",
  "Its cash flows are, by point in time from the pricing day on: the initial amount paid at the effective date, the final amount received at maturity, and for every row the floating coupon times the initial amount (1 if there is none), added up, whenever the swap is priced.",
  "all swaps, schedules of any length, curves, records, pricing dates",
  "schedules of any length, rounding for all floats",
  [SW+"PlainSwap::get_floating_cashflows"])
p("A swap is worth its discounted sides",
  "npv is the present value of the fixed side plus that of the floating side at the rate of exchange, each on its curve, within rounding; iteration orders of the maps matter for the rounding only; a forward is worth the discounted amount received at the rate of exchange less the discounted amount paid; an error of the cash flows or of a factor is the result.",
  "all swaps, curves, rates of exchange and iteration orders, up to 2^20 flows",
  "every iteration order of hash maps, error bound over all floats",
  [SP+"PlainSwapPricer::npv"])
p("The itemised value of a swap lists every flow",
  "npv_result has the same value as npv, lists the flows of the fixed side and those of the floating side at the rate of exchange under 0, 1, ..., each with probability 1, and what is expected on a day is the sum of what is listed for it.",
  "all swaps and iteration orders",
  "every iteration order of hash maps, any number of flows",
  [SP+"PlainSwapPricer::npv_result",NR+"NpvResult::get_expected_coupon_amount"])
p("The exposure of a swap is the value of its sides",
  "fx_exposure maps each side's currency to the present value of that side times the notional, within rounding; if both sides have one currency, to the sum; no other currency is exposed; at the rate of exchange the exposures add up to npv times the notional; it fails exactly if npv does.",
  "all swaps, curves and iteration orders, up to 2^20 flows",
  "error bound over all floats, every iteration order",
  [SP+"PlainSwapPricer::fx_exposure"])
FU="quantlib/src/instruments/futures.rs: "
FUP="quantlib/src/pricing_engines/futures_pricer.rs: "
FXP="quantlib/src/pricing_engines/fx_futures_pricer.rs: "
VO="quantlib/src/instruments/vanilla_option.rs: "
OAP="quantlib/src/pricing_engines/option_analytic_pricer.rs: "
p("The fair forward carries the spot price",
  "The fair forward is the spot price times the borrowing factor over the collateral factor times the product of 1 - yield over the dividends up to maturity, within four roundings; today it is the spot price; it fails exactly if a factor or the dividend ratio does; a date in the past is an error.",
  "all spots, curves, dividends, evaluation dates and maturities",
  "error bound over all floats, every date",
  [FUP+"FuturesPricer::fair_forward"])
p("A future is worth its fair forward",
  "npv of a future is the fair forward at its maturity, the itemised value has that value and no items; its exposure is (forward - average trade price) * notional in the future's currency alone, within rounding; an error of the forward is an error of both.",
  "all futures, curves, spots",
  "error bound over all floats",
  [FUP+"FuturesPricer::npv",FUP+"FuturesPricer::fx_exposure",FU+"Futures"])
p("An FX future is worth the carried rate",
  "npv is the rate of exchange times the underlying currency's factor over the futures currency's, within three roundings; it is exposed to the underlying currency with that factor and to the futures currency with minus the discounted trade price, times the notional; at the rate of exchange these add up to the discounted gain; it fails exactly if a factor does.",
  "all FX futures, curves, rates",
  "error bound over all floats",
  [FXP+"FxFuturesPricer::npv",FXP+"FxFuturesPricer::fx_exposure"])
p("Stock and cash are worth their price",
  "The identity pricer returns the market price, the unit pricer exactly 1, the itemised values have no items; an instrument without its own exposure is exposed to its currency alone, with npv times notional within one rounding.",
  "all prices, notionals, currencies",
  "all floats",
  ["quantlib/src/pricing_engines/identity_pricer.rs: IdentityPricer","quantlib/src/pricing_engines/unit_pricer.rs: UnitPricer","quantlib/src/pricing_engines/pricer.rs: PricerTrait::fx_exposure"])
p("Call and put are in parity",
  "Whatever the volatility: a call has a price exactly if the put has, namely if forward, volatility, discount factor and, for another currency, quanto data exist; call less put is the discounted forward less the discounted strike, and no call is worth more than the discounted forward and no put more than the discounted strike, within rounding.",
  "all options, market data, volatility functions and quanto data",
  "all volatility functions, error bound over all floats",
  [OAP+"OptionAnalyticPricer::npv",OAP+"OptionAnalyticPricer::npv_result"])
p("An option is worth its expected payoff",
  "With a constant volatility the price is, within a stated error, the discounted integral of the payoff against the lognormal distribution around the forward with deviation volatility times square root of time; so it is not below the discounted payoff at the forward, nor above the forward or strike, and does not fall as the volatility rises.",
  "forwards and strikes up to 2^30 with moneyness 2^-20 to 2^20, volatilities 2^-10 to 16, times 2^-20 to 128 years, factors up to 2^20",
  "an integral over the real line, error bound over all floats",
  [OAP+"OptionAnalyticPricer::npv","quantlib/src/parameters/volatilities/constant_volatility.rs: ConstantVolatility"])
p("An option at its edges",
  "On its last day an option is worth its payoff; an expired one is an error; one paid in another currency without quanto data is an error, and with them is priced on the forward they adjust; making an option keeps its terms and names the pair underlying to paying currency exactly if they differ.",
  "all options, curves, prices",
  "every date and price",
  [OAP+"OptionAnalyticPricer::npv",VO+"VanillaOption::new"])
IN="quantlib/src/instrument.rs: "
MT="quantlib/src/pricing_engines/match_parameter.rs: "
EG="quantlib/src/pricing_engines/engine_generator.rs: "
EN="quantlib/src/pricing_engines/engine.rs: "
p("A portfolio lists each code once",
  "The underlying codes, exchange-rate codes, quanto pairs, underlyings that need a volatility and type names of a portfolio are those of its instruments, each listed once, in the order of first appearance.",
  "all portfolios",
  "every list of instruments",
  [IN+"Instruments::get_all_underlying_codes",IN+"Instruments::get_all_fxcode_for_fxfutures",IN+"Instruments::get_all_quanto_fxcode_und_pairs",IN+"Instruments::get_all_type_names"])
p("A portfolio lists its currencies",
  "The currencies of a portfolio are those its instruments are in, those their futures are on and those of the floating legs of its swaps, each listed once in order of first appearance.",
  "all portfolios",
  "every list of instruments",
  [IN+"Instruments::get_all_currencies"])
p("A selection holds exactly what was asked for",
  "Selecting by underlying, currency, type or maturity gives, in the portfolio's order, the instruments with that underlying, currency, type or maturity and no others, without the excluded types; those maturing up to a date and those maturing later make up the portfolio.",
  "all portfolios, codes, dates, exclusions",
  "every list of instruments",
  [IN+"Instruments::instruments_with_underlying",IN+"Instruments::instruments_with_currency",IN+"Instruments::instruments_with_types",IN+"Instruments::instruments_with_maturity_upto",IN+"Instruments::instruments_with_maturity_over"])
p("The shortest and the longest maturity",
  "The shortest maturity is the earliest of those that exist and absent exactly if none does; the longest is the latest, and absent if an instrument has no maturity or there is none.",
  "all portfolios",
  "every list of instruments",
  [IN+"Instruments::get_shortest_maturity",IN+"Instruments::get_longest_maturity"])
p("The curves a portfolio needs",
  "The curve names of a portfolio are those its instruments are discounted, collateralised, borrowed or projected with, each listed once; the instruments using a curve are those that need it, each once, without the excluded types.",
  "all match parameters, portfolios, curves",
  "every list of instruments and every mapping",
  [MT+"MatchParameter",IN+"Instruments::get_all_curve_names",IN+"Instruments::instruments_using_curve"])
p("Rates of exchange are consistent",
  "The engine's rate for a pair is the quoted one, else the inverse of the opposite quote, else a cross rate; if the quotes come within eps of one set of levels, every rate found is within 3 eps + 2^-23 of the ratio of the levels, whichever path it took; it is an error exactly if no path exists; a direct quote is used as it is.",
  "all quote tables, pairs, eps up to 1/16, levels between 2^-40 and 2^40",
  "every path through the quotes, error bound over all floats",
  [EN+"Engine::with_parameter_data"])
p("Every instrument is priced by one engine",
  "Instruments are distributed over the first category that accepts them: each goes to exactly one group, in order, every group keeps to its category; it is an error exactly if an instrument fits none.",
  "all lists of categories, all portfolios",
  "every list of instruments and categories",
  [EG+"InstrumentCategory::contains",EG+"EngineGenerator::distribute_instruments"])
LV="quantlib/src/parameters/volatilities/local_volatility_surface.rs: "
SD="quantlib/src/data/surface_data.rs: "
p("A volatility surface passes through its grid",
  "Building succeeds if the forwards exist; the built surface is, within a stated rounding error, piecewise linear in time and in forward moneyness through its grid and flat beyond it: at a tenor and the forward moneyness of a grid moneyness it is that cell, elsewhere it lies between the smallest and largest cell; with two tenors and two moneyness knots it answers every time and moneyness.",
  "all surfaces with sorted finite times and moneyness and finite bounded grids, all times and moneyness",
  "every grid, time and moneyness, error bound over all floats",
  [LV+"LocalVolatilitySurface::build",LV+"LocalVolatilitySurface::get_value"])
p("A constant surface is its constant",
  "A surface made from one volatility holds it in every cell and gives it back exactly at every time and moneyness, so an option is worth the same, bit by bit, under the surface and under the constant volatility.",
  "all volatilities, tenors, moneyness grids, options",
  "every float, time and moneyness",
  [LV+"LocalVolatilitySurface::with_constant_volatility"])
p("A surface from quotes reproduces the quotes",
  "The grid made from market quotes has one row per tenor and one column per moneyness, holds the bilinear interpolation of the quotes within a stated error, holds a quote itself where tenor and strike are quoted, and the built surface gives that quote back at that date and strike.",
  "all quote tables, tenors, moneyness grids",
  "every table of quotes, error bound over all floats",
  [LV+"LocalVolatilitySurface::with_market_surface",SD+"SurfaceData"])
p("Bad quotes are refused",
  "Quotes with dates out of order, dates before the evaluation date or without a spot make no surface; an accepted table has ordered dates, increasing strikes, and finite volatilities.",
  "all quote tables",
  "every table of quotes",
  [LV+"LocalVolatilitySurface::with_market_surface",LV+"LocalVolatilitySurface::build"])
p("A bump of a window of the surface moves that window",
  "Bumping from one time and moneyness to another adds the bump to exactly the cells of the knots within, keeps the shape, and every point of the built surface moves by between nothing and the bump; adjacent windows make one; a bump and its opposite undo each other.",
  "all surfaces, windows, bumps",
  "every grid and window, error bound over all floats",
  [LV+"LocalVolatilitySurface::bump_volatility"])
p("Sticky to the strike, sticky to moneyness",
  "A surface that sticks to moneyness does not depend on the market price it is built at; one that sticks to the strike keeps, at any market price, the volatility of each strike.",
  "all surfaces, market prices",
  "every grid and price",
  [LV+"LocalVolatilitySurface::build",LV+"LocalVolatilitySurface::get_value",EN+"Engine::set_delta_gamma"])
CRS="quantlib/src/pricing_engines/calculation_result.rs: "
PRT="quantlib/src/pricing_engines/pricer.rs: "
p("The engine reports the price before any bump",
  "Whatever greeks are asked for, the price, the value (price times notional) and the expected cash flows that a successful calculation reports for an instrument are those of its pricer in the market as it was before anything was bumped; a later failure leaves them. No engine is made for no instruments or a matured one. Engines work for any instruments, and a second calculation works.",
  "all markets, instruments, pricers, configurations",
  "every pricer and every combination of requested greeks",
  [EN+"Engine::with_instruments",EN+"Engine::set_npv_results",EN+"Engine::set_values",EN+"Engine::calculate",CRS+"CalculationResult::set_value"])
p("Exchange exposure is reported once per instrument",
  "A successful calculation of exposures leaves the market and everything else in the reports alone and reports for each instrument what its pricer says of its reported price: for a pricer without its own rule, price times notional in the instrument's currency.",
  "all markets, instruments, pricers",
  "every pricer and set of instruments",
  [EN+"Engine::set_fx_exposures",PRT+"PricerTrait::fx_exposure"])
p("Delta and gamma come from moving one underlying",
  "Stocks and futures get a percent of their price as delta and no gamma. For every other instrument and each of its underlyings, delta is the two-sided difference quotient of its prices with that underlying alone moved up and down by the ratio and gamma the second difference with its unmoved price; the market is left exactly as it was, nothing else in the reports changes, no later stage changes them. A failed calculation leaves the market as it was.",
  "all markets, instruments, pricers, ratios",
  "every pricer, instrument and underlying",
  [EN+"Engine::preprocess_delta_gamma",EN+"Engine::set_delta_gamma",EN+"Engine::calculate"])
p("A reported greek is its difference quotient up to rounding",
  "For prices, bumps and notionals of ordinary size the reported slope and delta are within a few units in the last place of the exact difference quotient of the prices, gamma within a stated multiple of the rounding of the prices; for a price quadratic in the underlying these quotients are the first and second order changes for a move of one percent, whatever the ratio.",
  "all finite prices, bumps, notionals in stated ranges",
  "every float, error bound",
  [EN+"Engine::set_delta_gamma",EN+"Engine::set_rho",EN+"Engine::set_vega"])
p("Rho comes from bumping one curve",
  "For every instrument but a stock and each curve it is priced off, the reported rho is the change of its price when that curve alone is bumped by the configured amount, per bump, for a basis point and the notional; all curves an instrument is priced off and no others are bumped, each up and down once; nothing else in the reports changes. Afterwards the rates are those of before, within two roundings.",
  "all markets, instruments, pricers, match parameters, bumps",
  "every pricer and set of curves",
  [EN+"Engine::set_rho",EN+"Engine::calculate",ZC+"ZeroCurve::bump_time_interval"])
p("Vega comes from bumping one surface",
  "For every instrument but stocks and futures and each of its underlyings, the reported vega is the change of its price when that underlying's whole surface alone is bumped, per bump, for a percent and the notional; nothing else in the reports changes and the cells of the surfaces are afterwards those of before within two roundings.",
  "all markets, instruments, pricers, bumps",
  "every pricer and surface",
  [EN+"Engine::set_vega",EN+"Engine::calculate",LV+"LocalVolatilitySurface::bump_volatility"])
p("Dividend delta comes from bumping one dividend",
  "For every instrument but stock and cash and each of its underlyings, the reported dividend delta is the change of its price when that underlying's dividends alone are raised, per bump, for a basis point and the notional; nothing else in the reports changes; the amounts and the ratios are afterwards those of before within two roundings; an underlying without dividends is no reason to panic.",
  "all markets with one dividend per underlying, instruments, pricers, bumps",
  "every pricer and dividend table",
  [EN+"Engine::set_div_delta",EN+"Engine::calculate",DV+"DiscreteRatioDividend::bump_date_interval"])
p("Rho by tenor is a partition of the curve",
  "For every instrument but stock and cash and each curve it is priced off, the reported ladder has one entry a tenor: the change of its price when only the rates after the tenor before and up to this tenor are bumped, each window up and down once; for rising tenors each time up to the last is in exactly one window. Entries beyond the first tenor at which nothing on the curve is alive are zero; nothing else in the reports changes; rates outside the windows are untouched and those inside restored within two roundings.",
  "all markets, instruments, pricers, tenors, bumps",
  "every tenor list, curve and pricer",
  [EN+"Engine::set_rho_structure",EN+"Engine::calculate",ZC+"ZeroCurve::bump_time_interval"])
p("Dividend delta by tenor",
  "For every instrument but stock and cash and each underlying with dividends, the reported ladder has one entry a tenor: the change of its price when only the dividends after the tenor before and up to this tenor are raised; entries beyond the first tenor at which nothing on the underlying is alive are zero; nothing else in the reports changes.",
  "all markets, instruments, pricers, tenors, bumps",
  "every tenor list, dividend table and pricer",
  [EN+"Engine::set_div_structure",EN+"Engine::calculate",DV+"DiscreteRatioDividend::bump_date_interval"])
p("Vega by tenor",
  "For every instrument but cash, stock and futures and each of its underlyings, the reported ladder has one entry a tenor. The volatilities after the tenor before and up to this tenor are raised, the last window first, each on top of those before, and the entry is the change of the price by it for one percent; a window that starts after the last maturity on the underlying gets zero and what it moves is counted at the next tenor below. Nothing else in the reports changes, and afterwards the surface is what it was.",
  "all markets, instruments, pricers, tenors, bumps",
  "every tenor list, surface and pricer",
  [EN+"Engine::set_vega_structure",EN+"Engine::calculate",LV+"LocalVolatilitySurface::bump_volatility"])
p("Theta is the change of the price over a day with the cash flows in between",
  "Cash and stock have theta zero. The instruments that mature within the configured number of days are priced again with the evaluation date moved to the first of their maturities, the others with it moved by that number of days: theta is the change of the price plus the cash flows after today up to that date, for one day and the whole notional. The date is put back after each, the curves and surfaces do not change and the prices come back; nothing else in the reports changes; without prices (and so cash flows) theta is an error.",
  "all markets, instruments, pricers, dividend tables, numbers of days",
  "every market, date and set of maturities",
  [EN+"Engine::preprocess_theta",EN+"Engine::set_theta_for_given_instruments",EN+"Engine::calculate",ED+"EvaluationDate::set_date"])
p("Vega by tenor and moneyness",
  "For every instrument but cash, stock and futures and each of its underlyings the reported matrix has one entry for each tenor and moneyness. The cells of the surface are raised by the bump configured for the matrix one on top of the other, the tenors from the last, in each the moneynesses from the first; the entry is the change of the price by that cell for one percent; tenors that start after the last maturity are left out and zero. Nothing else in the reports changes, matrices are reported only for the underlyings of an instrument, and afterwards the surface is what it was.",
  "all markets, instruments, pricers, tenors, moneynesses, bumps",
  "every tenor and moneyness list, surface and pricer",
  [EN+"Engine::set_vega_matrix",EN+"Engine::calculate",LV+"LocalVolatilitySurface::bump_volatility"])
p("A configuration is checked",
  "CalculationConfiguration::new gives the configuration it was asked for exactly if delta and gamma are both wanted or neither, every bump is above zero and theta_day is above zero; otherwise an error. What is set later by the with_ methods keeps to the same rules.",
  "all flags, bumps and theta days",
  "every combination of flags and of f32 bumps, with the infinities and NaN",
  ["quantlib/src/pricing_engines/calculation_configuration.rs: CalculationConfiguration::new","quantlib/src/pricing_engines/calculation_configuration.rs: CalculationConfiguration::with_delta_bump_ratio"])
p("A report in another currency",
  "representation_currency_conversion to the currency the report is in leaves it as it is; to another the value, the exposures, every greek, ladder, matrix and theta are the product with the rate, correctly rounded, none comes or goes, and the report is in the new currency. All the amounts are converted, the value stays the net present value of the units, and converting back gives the report of before.",
  "all reports, currencies and rates",
  "every report with any set of figures, every f32 rate",
  ["quantlib/src/pricing_engines/calculation_result.rs: CalculationResult::representation_currency_conversion"])
p("A loaded engine has the market of the data",
  "When with_parameter_data returns Ok, the engine's prices, dividends, curves, exchange rates, volatility surfaces and quanto parameters are those that the given data and the match parameter say for the instruments it was given: each asked-for underlying has its price and its dividend, no other has one, each curve is the one built from the data of its name, a constant volatility goes before a surface, and every price and dividend observes the evaluation date once.",
  "all data, match parameters, portfolios and evaluation dates",
  "nine maps of data, any portfolio, any mapping; the objects are shared and found by name",
  ["quantlib/src/pricing_engines/engine.rs: Engine::with_parameter_data"])
p("Loading fails exactly if something is lacking",
  "with_parameter_data returns an error only if a rate, a curve name, a curve, a price, a volatility, a mapping, a correlation or the volatility of a rate that some instrument asks for is missing from the data or cannot be built; when one is, it does not return Ok. Curves that the match parameter names are loaded.",
  "all data, match parameters, portfolios and evaluation dates",
  "every way in which data can be incomplete",
  ["quantlib/src/pricing_engines/engine.rs: Engine::with_parameter_data"])
p("Each instrument gets the pricer of its own market data",
  "initialize_pricers gives each instrument, under its code, a pricer that refers to the curves the match parameter names for it (discount, forward, collateral, borrowing, swap curves), to the past fixings of its index, the price of its underlying, its surface, its exchange rate and its quanto; there is one for every kind of instrument the library has.",
  "all portfolios, match parameters and loaded engines",
  "all combinations of kinds, currencies, indices and mappings",
  ["quantlib/src/pricing_engines/pricer_factory.rs: PricerFactory::create_pricer","quantlib/src/pricing_engines/engine.rs: Engine::initialize_pricers"])
p("Parallel engines report like one after the other",
  "EngineGenerator::calculate returns Ok only if every group's engine does; then, whatever the schedule of the threads, the results hold for each instrument of each group the report of one run of its group's engine, and nothing else: after distribute_instruments exactly one report per instrument. It returns an error only if some group's engine fails, and then all reports are of groups that did well. Results depend only on the portfolio and the data, not on the schedule.",
  "all portfolios, categories, data and schedules of the threads",
  "the order in which the threads take the lock, and which are left out after an error, is up to the scheduler",
  ["quantlib/src/pricing_engines/engine_generator.rs: EngineGenerator::calculate","quantlib/src/pricing_engines/engine_generator.rs: EngineGenerator::distribute_instruments"])
p("How a portfolio is split does not change its figures",
  "For two sets of categories with which both calculations succeed, each instrument's price, value, delta and gamma are the same: its pricer reads the same curves, prices, dividends, surfaces, rates and fixings in whatever group it is. So is its theta.",
  "all portfolios, categories, data, match parameters and pricing formulas",
  "all ways to split a portfolio; each engine loads its own market",
  ["quantlib/src/pricing_engines/engine_generator.rs: EngineGenerator::calculate","quantlib/src/pricing_engines/engine.rs: Engine::with_parameter_data","quantlib/src/pricing_engines/engine.rs: Engine::calculate"])
p("A Cholesky factor multiplies back to its matrix",
  "If cholesky_decomposition returns Ok(l), l is lower triangular. If its diagonal is finite, all of it is, the diagonal is positive, l l^T is positive definite, and differs from the matrix on and below the diagonal by at most ((1 + 2^-24)^(n+3) - 1) |l| |l|^T plus an underflow term; with no diagonal entry above D and up to 65536 rows each entry is within (n + 4) D / 2^23.",
  "all matrices of f32 of all sizes for which a factor is returned",
  "the rounding errors of all matrices of all sizes; the tests look at three shapes",
  ["quantlib/src/math/cholescky_factorization.rs: cholesky_decomposition"])
p("Which matrices cholesky_decomposition takes",
  "Only what stands on and below the diagonal is read; a matrix that is not square is refused; a matrix that is taken is symmetric, positive definite, and its factor finite; one that is positive definite is not refused. correlated_path has a row per row of the matrix and a column per step, and panics exactly if the matrix is refused.",
  "all matrices",
  "what rounding does near a singular matrix",
  ["quantlib/src/math/cholescky_factorization.rs: cholesky_decomposition","quantlib/src/pricing_engines/montecarlo/rand_generator.rs: correlated_path"])
p("A matrix clear of singular is always factored",
  "A finite symmetric matrix of n rows, entries at most D in size (2^-60 <= D <= 2^40) and no eigenvalue below n (n + 4) D / 2^21 is factored, and the factor is finite.",
  "all such matrices of all sizes",
  "rounding errors grow with the size; no overflow may happen on the way",
  ["quantlib/src/math/cholescky_factorization.rs: cholesky_decomposition"])
p("What an engine reports is the pricing formula on the data it was given",
  "With the library's own pricers in the engines: an instrument of a portfolio that was calculated with prices asked for is reported with a unit notional, a price and a value that are those of the formula of its kind, read with the curves made from the data of the names that the match parameter has for it, the stock price, the dividends, the surface, the fixings and the rates of exchange in the data: futures, options, bonds, swaps, foreign exchange futures, stocks and cash. The same for the exposures by currency. How the portfolio was split does not matter.",
  "all data, configurations, match parameters, instruments, portfolios with distinct codes, ways of splitting them, and orders of iteration",
  "the whole path from market data to a report, through which a name may be confused anywhere",
  ["quantlib/src/pricing_engines/engine.rs: Engine","quantlib/src/pricing_engines/engine_generator.rs: EngineGenerator","quantlib/src/pricing_engines/pricer.rs: PricerTrait","quantlib/src/pricing_engines/pricer_factory.rs: PricerFactory"])
p("The reported price is close to the price of the textbook",
  "Under bounds on the data, a reported price is within an explicit rounding error of: for a futures spot times the borrowing factor over the collateral factor times what dividends leave; for a foreign exchange futures the rate times the ratio of the factors; for a bond the present value of its future cash flows at the bond's curve; for a swap the present values of its two legs, the floating one at the rate of exchange; for an option on a constant volatility the discounted Black price at that volatility; for a stock exactly its price.",
  "all data within the bounds, all instruments, all portfolios",
  "rounding through the whole calculation",
  ["quantlib/src/pricing_engines/engine.rs: Engine::set_npv_results","quantlib/src/pricing_engines/futures_pricer.rs: FuturesPricer","quantlib/src/pricing_engines/bond_pricer.rs: BondPricer","quantlib/src/pricing_engines/plain_swap_pricer.rs: PlainSwapPricer","quantlib/src/pricing_engines/option_analytic_pricer.rs: OptionAnalyticPricer"])
p("Put-call parity holds between reports",
  "The reported prices of a call and a put on the same underlying, of one strike, maturity and currency, and of the futures of that maturity satisfy call - put = D (futures - strike) within an explicit rounding error, D being the factor of the funding curve, also if they are reported in different portfolios.",
  "all data for which the call and the futures have prices, any surface, with or without quanto data, all portfolios",
  "rounding, any surface, any split of the portfolio",
  ["quantlib/src/pricing_engines/engine.rs: Engine::set_npv_results","quantlib/src/pricing_engines/option_analytic_pricer.rs: OptionAnalyticPricer::npv","quantlib/src/pricing_engines/futures_pricer.rs: FuturesPricer::npv"])
p("A report does not depend on hash map order",
  "Two calculations of one instrument on the same data give the same price, value, delta and gamma unless it is a bond or a swap; for a bond they are within an explicit rounding error of one another.",
  "all pairs of calculations, of whatever portfolios holding the instrument and whatever orders of iteration",
  "the order is random in each run",
  ["quantlib/src/pricing_engines/engine.rs: Engine","quantlib/src/pricing_engines/bond_pricer.rs: BondPricer::npv","quantlib/src/pricing_engines/plain_swap_pricer.rs: PlainSwapPricer::npv"])
p("Reported delta and gamma are differences of the instrument's own formula",
  "For a futures or a stock the reported delta is the price times a percent times the notional and gamma is zero; for an option they are the first and second differences of the option formula at the stock price times one plus and one minus the delta ratio, with surface, curves, dividends and quanto data as they were.",
  "all data, configurations, portfolios with distinct codes",
  "the bumps are made on shared state that other instruments are priced from too",
  ["quantlib/src/pricing_engines/engine.rs: Engine::set_delta_gamma","quantlib/src/pricing_engines/option_analytic_pricer.rs: OptionAnalyticPricer::npv"])
p("The yield found for a bond is one that was tried, and reprices it if the search ended at its target",
  "Whatever find_bond_yield returns is the guess (0.02 if there is none) or a parameter that was priced, with the least cost of those; a cost below the target means that the bond priced at that yield is within 3.2e-5 of the given price, and its textbook price within the rounding error more. The cost does not depend on what yield the pricer had before. The gradient that steers the search is the central difference of the cost at 5e-5, within explicit rounding. That the yield returned reprices the bond is NOT guaranteed.",
  "all bonds, prices, guesses, curves, fixings, orders of iteration, and all sequences of parameters a search may try",
  "the search is argmin's, and any sequence of parameters may come",
  ["quantlib/src/pricing_engines/krx_yield_pricer.rs: KrxYieldPricer::find_bond_yield, CostFunction::cost, Gradient::gradient"])
p("The price of a bond falls with its yield, and so its yield is unique",
  "For a bond whose cash flows to come are not negative the textbook price at a greater yield is less, by at least the difference of the yields times the duration slope at the greater one; and two yields whose computed prices are both within eps of a price differ by at most (2 eps and both rounding errors) over that slope.",
  "all bonds, all yields from -1/2 to 1/2 for a period with factors from 2^-40 to 2^40, all prices",
  "for all pairs of yields, with rounding in both prices",
  ["quantlib/src/pricing_engines/krx_yield_pricer.rs: KrxYieldPricer::npv, find_bond_yield"])
p("A code of a KRX message is decoded by the interface its letters say",
  "No code is listed twice in the map from codes to interfaces, so that the order of the insertions has no effect; each listed code has the interface of its class (trade, quote, both), market (derivatives, securities, bonds) and number of levels (ten for the products 4 and 5); and each of the sixteen derivatives has codes for trades, for quotes and for both.",
  "all codes, orders of insertion, and products",
  "a swapped letter or digit is seen only in a message that has it",
  ["trading-engine/src/data/krx/interface_map.rs: KRX_TR_CODE_MAP"])
p("A lazy string is made once, whatever the schedule",
  "With any number of threads reading a LazyString, its initializer returns at most once; nothing is read before, everything read is what it returned; a reader that waits waits for one that makes the string or can go on; an initializer that panics leaves the string to be made by another. What is read of a deserialized one is what was serialized.",
  "all schedules of any number of threads, all initializers, panics included",
  "schedules",
  ["trading-engine/src/utils/lazy_string.rs: LazyString"])
p("The codes of exchange rates for a list of currencies are all their pairs",
  "currencies_to_fx_codes gives a code for each ordered pair of different currencies of the list and no other, each once if no currency is listed twice; must_include adds the codes that are not yet there, each once, at the end in their order.",
  "all lists of currencies and of codes",
  "for all lists",
  ["quantlib/src/utils/make_fx.rs: currencies_to_fx_codes"])
p("Enumerations and bytes are the same, and balances begin empty of orders",
  "from_u8 of OrderSide, DataType and TradeType gives a variant exactly for its discriminant and an error for any other byte; opposite changes the side, and twice gives it back; a Balance begins with the quantity as outstanding and liquidatable, nothing pending and no bounds, each builder sets its bound alone, and is_empty says whether nothing is outstanding.",
  "all bytes, sides, quantities and bounds",
  "for all bytes and numbers",
  ["trading-engine/src/types/enums.rs: FromU8","trading-engine/src/conductor/oms/account.rs: Balance"])
p("Vega in a report is the change of the option's own price when its surface is bumped",
  "If prices and vega are asked for, and theta is not, the vega that a report has for an underlying of an instrument, in whatever portfolio and group, is (price on the bumped surface - price) / bump * 1% * notional, where both prices are by the instrument's own formula, from the curves, price, dividends, quanto and fixings that the data have for it, the same in both; and the bumped surface is the one made from its market data with every volatility raised by the bump. The price is the one in the report.",
  "all data, portfolios, groups, orders of iteration, instruments with a volatility and settings that ask for vega and not for theta",
  "the surface passes through a shared cell that is bumped and restored for each underlying in turn",
  ["quantlib/src/pricing_engines/engine.rs: Engine::calculate, set_vega", "quantlib/src/pricing_engines/option_analytic_pricer.rs"])
p("Rho in a report is the change of the instrument's own price when the curves of one name are bumped",
  "If prices and rho are asked for, and theta is not, the rho that a report has for a curve the instrument needs is (price with that curve bumped - price) / bump * 1bp * notional by the instrument's own formula. Every curve of that name that its pricer reads is bumped, in whatever place; no other curve differs from the data but by an earlier bump up and down again, the surface no more than by that of vega, and price, dividends, rate of exchange, quanto and fixings not at all. For futures, options, bonds, FX futures and swaps the formula and the curves are spelled out.",
  "all data, portfolios, groups, orders of iteration, instruments but stocks, names of curves they need, and settings that ask for rho and not for theta",
  "curves are shared between instruments and bumped in place, one after another",
  ["quantlib/src/pricing_engines/engine.rs: Engine::calculate, set_rho"])
p("The delta of dividends in a report is the change of the instrument's own price when its dividends are bumped",
  "If prices and the delta of dividends are asked for, and theta is not, the figure a report has for the first underlying of an instrument is (price with its dividends bumped - price) / bump * 1bp * notional by the instrument's own formula; only the dividends of that underlying are bumped, its spot is the same, and curves and surface differ from the data by no more than what vega and rho did and undid. For futures and options the formula is spelled out.",
  "all data, portfolios, groups, orders of iteration, instruments with underlyings but stocks, and settings that ask for it and not for theta",
  "dividends are shared between the price of an underlying and its surfaces",
  ["quantlib/src/pricing_engines/engine.rs: Engine::calculate, set_dividend_delta"])
p("Theta in a report is the change of the instrument's own price over the days, from the data",
  "If prices and theta are asked for, the theta that a report has for an instrument other than cash and stock is (price later - price now + cash in between) * notional / years / 365, both prices by the instrument's own formula from what the data have for it. An instrument that matures within the theta days is priced at a date before or on its maturity and not after the last of the days, every other at the day that many days on. Only the date, the price and the dividends of its underlying follow the date: the price takes off every dividend passed on the way, in order, a stock without dividends stays; curves, volatilities, rates of exchange, quanto and past fixings are those of the data. The price now is the one at the evaluation date, for instruments of the second kind possibly after the stock has been carried to an earlier date and back. The cash is that of the coupons reported after the evaluation date and up to the date moved to. For futures, options, FX futures, bonds and swaps the formula is spelled out. Cash and stock have theta 0.",
  "all data, portfolios, groups, orders of iteration, instruments and settings that ask for theta",
  "the date is a shared cell whose observers are told in an order of iteration, and theta moves it there and back twice",
  ["quantlib/src/pricing_engines/engine.rs: Engine::calculate, set_theta_for_given_instruments", "quantlib/src/evaluation_date.rs: EvaluationDate", "quantlib/src/parameters/market_price.rs"])
p("A portfolio that can be priced can be given its theta",
  "If a group of instruments is reported with the theta switched off, it is reported with the theta switched on.",
  "all data, portfolios and settings that differ in theta only",
  "whether moving the date is possible depends on the dates of all dividends and the number of days",
  ["quantlib/src/pricing_engines/engine.rs: set_theta_for_given_instruments", "quantlib/src/parameters/discrete_ratio_dividend.rs: update_evaluation_date"])
p("A UDP response is the text that was sent",
  "A text of at most 1024 bytes, whatever its characters, is received as it was sent. Whatever bytes come, receive_response gives valid UTF-8 of at most 3072 bytes, and a datagram of at most 1024 bytes is given unchanged exactly if it is valid UTF-8. send_message sends the text's bytes as one datagram and takes nothing from what has come.",
  "all texts, all byte sequences, all states of the socket",
  "it ranges over every sequence of bytes a datagram can hold",
  ["trading-engine/src/communication/udp_client.rs: UdpClient::send_message, UdpClient::receive_response"])
p("A response longer than the buffer is not taken for a whole one",
  "No two different texts give the same response. (Refuted: a datagram of more than 1024 bytes is cut without an error. The response is the whole characters that fit, followed by U+FFFD if the next character fits in part.)",
  "all texts of any length",
  "which character is cut depends on the encoded lengths of all characters before it",
  ["trading-engine/src/communication/udp_client.rs: UdpClient::receive_response"])
p("UDP responses come one per datagram, in order, from the server asked",
  "After any history of arrivals, sends and receives, the responses are those of the first datagrams that came, one each, in the order of arrival; those not asked for yet are still there; and what went out is what was sent, in order. (Refuted: that the response is the server's. Whoever sent the datagram, it is the response.)",
  "all histories of arrivals, sends, receives and failures",
  "it ranges over every interleaving of arrivals and calls",
  ["trading-engine/src/communication/udp_client.rs: UdpClient"])
open('/verif/properties.jsonl','w').write(''.join(json.dumps(x)+'\n' for x in P))
print(len(P))
