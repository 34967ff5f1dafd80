# Formal model of JunbeomL22/trusted — design

Everything lives in `rocq/theories` (logical name `Verif`). The code is not run;
it is read as text and transcribed function by function. Every definition of a
`*Model.v` file carries a `file lines` citation into /repo.

## Layers

| file | role |
|---|---|
| `Base.v` | outcomes (`Ret`, `Panic`, `Diverge`), the two build profiles (`Checked`: overflow panics, `Wrapping`: release arithmetic mod 2^64), u64/i64 ranges |
| `OBTypes.v`, `OBModel.v` | order types; `Level`, `HalfBook`, `OrderBook` |
| `OBSpec.v` | independent specification: an exchange whose whole state is one flat list of resting orders in arrival order; which requests are valid |
| `OBBase.v` … `OBMore.v`, `OBViews.v`, `OBProofs.v` | proofs: invariant, per-operation simulation, what a book shows |
| `OBDecide.v` | decision procedures for the validity predicates, used only by the non-vacuity examples |
| `OBProps.v`, `OBProps2.v`, `OBProps3.v` | C01–C22 |
| `NumModel.v` / `NumSpec.v` | digit, decimal and clock fields: the SWAR parsers / how a number is written |
| `NumProofs.v`, `NumConv.v`, `NumProps.v` | C23–C31 |
| `KrxModel.v` / `KrxSpec.v` | the KRX message parsers / an encoder of KRX messages (and RFC 3629 UTF-8) |
| `KrxProofs.v`, `KrxMsg.v`, `KrxUtf8.v`, `KrxProps.v`, `KrxProps2.v` | C32–C41 |
| `SpinModel.v` / `SpinSpec.v` | spinqueue.rs on a release/acquire machine / usage contract and delivery, over call histories |
| `SpinProofs.v`, `SpinInv.v`, `SpinLive.v`, `SpinDrive.v`, `SpinProps.v` | C42–C49 |
| `CivilSpec.v` | the Gregorian calendar (no code) |
| `ClockModel.v`, `ClockProofs.v`, `ClockProps.v` | counters, civil time, timestamp differences, averages: C50–C56 |
| `IdModel.v`, `IdProps.v` | interning, ISIN codes, tickers: C57–C59 |
| `LogModel.v` / `LogSpec.v` | the logging system (callers, channel, thread, BufWriter) / log text and files of a history |
| `LogProofs.v`, `LogProps.v` | C60–C67 |
| `FloatModel.v`, `FloatFacts.v` | f64 and f32 as Flocq's IEEE formats; each operation = exact operation + one rounding |
| `TickModel.v` / `TickSpec.v` | tick features on floats / their meaning on book integers |
| `TickProofs.v`, `TickProps.v` | C68–C74 |
| `EwmaModel.v`, `EwmaProps.v` | C75, C76 |
| `QDateModel.v`, `QDateProofs.v` | dates, times and offsets of the `time` crate as day number, nanosecond, offset |
| `QCalTables.v` | holiday tables, generated from the source text |
| `QCalModel.v` / `QCalSpec.v` | calendars function by function / published holidays, Easter algorithms, business days through the API |
| `QCalProofs.v`, `QCalScan.v`, `QCalAdjust.v`, `QCalAdjust2.v`, `QCalDisplay.v`, `QCalRules.v`, `QCalKorea.v`, `QCalProps.v` | C77–C91 |
| `QYearModel.v` / `QYearSpec.v` / `QYearProofs.v`, `QYearProps.v` | day counts and time differences on f32 / published rules / C92–C95 |
| `QPeriodModel.v` / `QPeriodSpec.v` / `QPeriodProofs.v`, `QPeriodProps.v` | period strings / months and dates / C96–C101 |
| `QPeriodFModel.v`, `QPeriodFProps.v` | period strings as f32 / C102 |
| `QSchedModel.v` / `QSchedSpec.v` / `QSchedProofs.v`, `QSchedBack.v`, `QSchedTotal.v`, `QSchedProps.v` | frequencies and schedules / steps, `built_on` / C103–C107 |
| `QFindModel.v` / `QFindSpec.v` / `QFindProofs.v`, `QFindProps.v` | searching / orders, the place of a value / C108, C109 |
| `QInterpModel.v` / `QInterpSpec.v` / `QInterpProofs.v`, `QFloatErr.v`, `QLinProofs.v`, `QStepProps.v`, `QLinProps.v`, `QBilinProps.v`, `QDistProps.v` | interpolators, spreading / pointwise, interval / C110–C122 |
| `QDivModel.v` / `QDivSpec.v` / `QDivProofs.v`, `QDivProps.v`, `QRollProofs.v`, `QRollProps.v` | dividends, market prices, evaluation date / products over the dividends in an interval / C123–C130 |
| `QCurveModel.v` / `QCurveSpec.v` / `QCurveDates.v`, `QCurveProofs.v`, `QCurveFacts.v`, `QCurveReach.v`, `QCurveDisc.v`, `QCurveExp.v`, `QCurveProps.v`, `QCurveFwdProps.v` | zero curves / the grid of dates, a good exp and ln, the rate at a time / C131–C141 |
| `QBondModel.v` / `QBondSpec.v` / `QBondProofs.v`, `QYieldProofs.v`, `QBondPriceProps.v`, `QBondProps.v`, `QCouponProps.v`, `QYieldProps.v`, `QKtbfProps.v` | closing prices, bonds, floating coupons, bond pricers, the treasury bond future / what rows pay, sub-periods, present values, annuities / C142–C152 |
| `QMoneyModel.v` / `QMoneyProps.v` | currencies, currency pairs, commas / C153–C155 |
| `QSwapModel.v` / `QSwapSpec.v` / `QSwapProps.v`, `QSwapPriceProps.v` | plain swaps and their pricer / kinds of swap, exchanges, what rows pay / C156–C161 |
| `QFutModel.v` / `QFutProps.v` | forwards, futures, FX futures, cash, stock, volatility, options / C162–C165 |
| `QNormal.v`, `QOptSpec.v`, `QBlackReal.v`, `QBlackExp.v` | the normal distribution / what options pay, Black's formula / its bounds, growth, expectation |
| `QOptProofs.v`, `QOptProps.v` | rounding of the option price / C166–C168 |
| `QInstModel.v`, `QInstSpec.v` | portfolios, curve names, exchange rates, categories / what they are to be |
| `QInstProps.v`, `QMatchProps.v` | C169–C172 / C173–C175 |
| `QVolModel.v`, `QVolSpec.v`, `QVolProofs.v` | the volatility surface / when it is tame, what it is to be / its accuracy |
| `QVolProps.v`, `QVolMktProps.v`, `QVolBumpProps.v` | C176–C177 / C178–C179 / C180–C181 |
| `QEngModel.v`, `QEngSpec.v`, `QEngProofs.v`, `QEngFrame.v` | the engine / what is reported, what changes / how methods run / what each stage leaves alone |
| `QEngProps.v`, `QEngDeltaProps.v`, `QEngRealProps.v` | C182 / C183–C184 / C185 |
| `QEngBump.v`, `QEngBumpProps.v`, `QEngBackProps.v` | how one-bump greeks run / C186–C188 / what is restored |
| `QEngLadder.v`, `QEngLadderProps.v` | how ladders run / C189–C190 |
| `QEngVega.v`, `QEngVegaProps.v` | how the vega ladder runs / C191 |
| `QEngThetaProps.v`, `QEngThetaBackProps.v` | C192 |
| `QEngMatrix.v`, `QEngMatrixProps.v` | how the vega matrix runs / C193 |
| `QConvModel.v`, `QConvProps.v` | the setters of the configuration and the conversion of a report / C194, C195 |
| `QLoadModel.v`, `QLoadSpec.v`, `QLoadProofs.v`, `QLoadProps.v`, `QPricerProps.v` | loading market data into an engine and wiring its pricers / C196–C198 |
| `QGenModel.v`, `QGenProofs.v`, `QGenProps.v`, `QGroupProofs.v`, `QGroupProps.v` | the engine generator: parallel engines, splitting a portfolio / C199, C200 |
| `QCholModel.v`, `QCholSpec.v`, `QCholProofs.v`, `QCholSure.v`, `QCholProps.v` | Cholesky / C201–C203 |
| `QWholeModel.v`, `QWholeSpec.v`, `QWholeProofs.v`, `QWholeProps.v` | the engine with the library's own pricers: from data to report / C204–C208 |
| `QSeekModel.v`, `QSeekSpec.v`, `QSeekProps.v` | the search of a bond's yield: its cost, gradient and result / C209, C210 |
| `MiscModel.v`, `MiscSpec.v`, `MiscProps.v` | codes of KRX messages, lazy strings, pairs of currencies, enums and balances / C211–C214 |
| `QRiskSpec.v`, `QRiskProofs.v`, `QRiskProps.v` | vega, rho and the delta of dividends from data to report: what each price is computed from, by following the markets between the stages of a calculation / C215–C217 |
| `QDecaySpec.v`, `QDecayProofs.v`, `QDecayProps.v` | theta from data to report: what is read after the date was moved, the prices and dividends that follow it; a last dividend that stops it / C218–C219 |
| `UdpModel.v`, `UdpSpec.v`, `UdpProofs.v`, `UdpProps.v` | the UDP client: lossy decoding, the 1024-byte buffer, order of responses / C220–C222 |

For C204 to C208 the arbitrary formulas of the engine model are those of the pricers
modelled elsewhere. What instruments hold besides what the engine reads of them (strike,
average price, the bond, the swap) is any function of the instrument. The order in which
a pricer goes through a map of cash flows is any permutation that may depend on the call,
the leg, the data and the instrument, but is the same if all of these are the same; in the
code every map has an order of its own. The pricers are functions of what they refer to:
that they read it through `Rc<RefCell<_>>` is in the engine model.

`tools/` generates `properties.jsonl` and `MANIFEST.json`; it is no part of the proofs.

## Order book properties (C01–C22)

Model: `BTreeMap` = sorted association list, `FxHashMap` = `gmap`, `VecDeque` =
list, `u64` arithmetic explicit (`uadd`/`usub`, both build profiles).
Proof: `rel b mk` relates a model book to the flat market of the specification
(per-price queues equal the arrival-ordered orders; totals, index and cached
best price coherent); each request is shown to preserve `rel` and to give the
reply of the specification; induction over the history.

* C01 history refinement: induction over `valid_history`.
* C02, C04, C05, C20: read the fields of a related book.
* C06, C07, C09–C12: from the specification of matching (`execute`) through C01.
* C08: the reference exchange never crosses; lifted by C01.
* C03, C09 (extremes), C13, C17, C22: the code violates the property; a
  `_refuted` theorem gives a concrete reachable witness and a `_partial` theorem
  states what does hold.
* C14–C16: snapshot diff / L2 update against the specification's rows.
* C18: no-effect, for every book.
* C19: ids issued by the counter, over whole histories.
* C21: `eq_level` decides equality of per-price quantities on related books.

## Number and clock fields (C23–C31)

Model: a byte slice is a function from index to byte with its length and the
number of bytes up to the end of its allocation; unaligned 8/16-byte reads
past the length but inside the allocation return the following bytes, past the
allocation they are `Panic` (undefined behaviour in Rust). All shifts, masks
and multiplications are written with their machine width.
Specification: `digit_chars`, `written`, `clock_text` say how numbers are
printed. Proof: the lane-splitting lemma `swar_step_pairs` (one mask-multiply-
shift step on lanes of width 2B) iterated; then the converters by case analysis
on their configuration; the clock's day-rollover loop by well-founded fuel.
C29/C30 are inductions over streams.
Refuted: C24 (17 columns ending in the point), C25 (some accepted
configurations), C26 ('+'), C27 (signed/padded/dotted fields), C30, C31.

## KRX messages (C32–C41)

Model: one record `iface` for the numbers of each IFMSRPD00nn format, the
fresh and the buffer variant of each parser, framing checks including the
UTF-8 `unwrap` in the error text. The ten copies of each unrolled block are one
indexed definition (the blocks were compared by eye). Specification: an encoder
written from the layout tables. Proof: each parser reads back what the encoder
wrote (`*_read`), and returns on arbitrary bytes (`*_total`); buffers by
equation with the fresh parser; sessions by induction. C41 composes with C16.
Refuted: C34 (`to_trade_data` price), C35 (stock prices), C37 (panic instead of
Err), C39 (stale levels and converters).

## Spin queue (C42–C49)

Model: the atomic status word is a list of messages in modification order, each
with a value, and the view (per-thread access counts) a release store attaches;
a load may read any message at or above the reading thread's coherence floor, a
read-modify-write reads the newest and appends. Nothing else of C11 is assumed:
the machine has at least the behaviours the Rust memory model permits for a
single location. `races s t e` says that the access `e` by `t` is unordered
with a conflicting access. Proof: an invariant over contract-keeping histories
(number of rounds, which bits of each message are set, which views cover which
accesses), induction over the history; progress (C45) by constructing the
continuation. C46–C49: bit algebra, and concrete runs for the refutations.

## Counters, civil time (C50–C56)

Each counter call is one atomic read-modify-write, so a concurrent history is
the list of its calls in modification order. Dates are proved against
`CivilSpec.day_number` (closed formula) by induction over the year and month
loops. Floating point is not modelled: differences and averages are stated up
to the last conversion (quotient and remainder, or numerator and denominator).

## Identities and logger (C57–C67)

Interning: every entry point is one critical section of one mutex, so a
concurrent history is a list of calls; a leaked box is a heap cell; invariant:
cache and heap are the same bijection. Logger: FIFO channel, one consumer; the
environment supplies clock readings, whether files open, and the console flag;
the effect of a turn is the list of bytes appended to files, so a crash is any
prefix of that list. Invariant: bytes written ++ writer's buffer ++ queue = text
of the messages handled. Not modelled: I/O errors while writing, `sync_all`
(the crash meant is that of the process), the JSON text itself, allocation.

## Tick features (C68–C76)

Floats are Flocq's `binary_float` with round-to-nearest-even, so overflow,
NaN and rounding are the program's. Proofs go through the real value of each
operation; error bounds multiply one rounding factor per operation. `ln` and
`powf` are parameters (libm is not modelled): the theorems assume only the
stated facts about them.

## Calendars (C77–C91)

A `time::OffsetDateTime` is local day number, nanosecond of the day and offset;
what the crate does with it (`to_offset`, `+ Duration`, `date`, `weekday`, range
-9999..9999, panics outside) is taken from its documentation and trusted.
Loops may take 2^24 turns, more than there are dates; the theorems show that
none is cut short.
"A business day within 7 days" for years without tables comes from periodicity
(the rules repeat every 400 years = 146097 days, a multiple of 7) and for years
with tables from a scan in the VM. The rule theorems compare the code's tests
(weekday, day-of-month ranges) with n-th weekdays and observance for all years;
the Easter tables are compared with Meeus' algorithms for 1901–2199. Not
modelled: `log` warnings, calendar names, the printed text of `display_holidays`.

## Day counts (C92–C95)

Every f32 and f64 operation is rounded. The loop over years adds 1.0 up to
20000 times; the proof shows that an addition is exact unless it crosses a
power of two, so the error stays below (years+1)/2^20. The reference is the
Actual/Actual sum over calendar years, defined apart from the code.

## Periods and schedules (C96–C107)

The regular expression of `string_arithmetic.rs` is modelled as a scanner that
finds the same captures (leftmost, greedy); strings are lists of ASCII
characters. `months_after` defines the date n months away without reference
to the code. A schedule's statement, `built_on`, names the raw dates, the
adjusted ones (through C77–C83's `adjust`) and the order of start and end.
The forward and backward loops end by a measure bounded by the calendar.

## Searching and interpolation (C108–C122)

The searches are modelled over any type with Rust's `partial_cmp` (None for
incomparable values), so NaN is an input like any other; the theorems that
need an order assume `total_order` on a set of values, and `c108_floats` gives
it for the f32 that are not NaN. ndarrays are lists, a matrix is the list of its
rows. Indices are natural numbers (an array of more than 2^63 elements does
not exist). The accuracy theorems compare with exact real arithmetic; their
hypotheses bound magnitudes so that nothing overflows.

## Dividends, prices and the evaluation date (C123–C130)

The shared objects (`Rc<RefCell<..>>`) are entries of lists and references are
indices into them: a price refers to a dividend, the evaluation date to its
observers. All borrows in the modelled functions are nested without conflict,
so RefCell never panics there. Names, codes, currencies and debug output are
left out; `get_dividend_ratio` is looked up at the time of the call, as in the
code.

## Zero curves (C131–C141)

`f32::exp` and `f32::ln` come from the platform's libm. The model takes them as
arguments; theorems that need them assume `good_exp` (right at 0, relative
error 2^-22 on [-64, 64]) or `good_ln` (relative error 2^-22 on the positive
numbers). `QCurveExp.v` shows that functions with these properties exist (the
correctly rounded ones), so the theorems are not empty. The curve does not
store the evaluation date: methods read the shared one, and the theorems hold
for whatever it then is. `ndarray` arithmetic is elementwise.

## Bonds (C142–C152)

A `HashMap` is the list of its entries; where code iterates over one, the model
takes an `order`, any function that permutes its argument (`iterates`), and the
theorems hold for all of them. `f32::powi` and `f32::powf` are arguments like
`exp`, assumed `good_powi` (one unit in the last place a factor) and
`good_powf` (two units); `QKtbfProps.v` shows such functions. The minimiser
behind `find_bond_yield` (crate argmin) is an argument too, with nothing
assumed: C152 takes the yields it returns. A bond keeps the tenor of its rate
index; names, currencies and codes are left out.

## Money and swaps (C153–C161)

Text is a list of bytes; a slice that does not fall on a character boundary
panics. Swaps reuse the maps, schedules, curves and coupons of the bonds
section; `usual` numbers are finite and at most 2^30 in size.

## Futures and options (C162–C168)

The normal distribution function is defined as an integral (Coquelicot's
`RInt`), the Gaussian integral is proved. The statrs routine for it is a
parameter, right to 2^-22 (`good_cdf`), as `ln` and `exp` are parameters right
to 2^-22 relative (`good_ln`, `good_exp`); `an_cdf`, `an_ln`, `an_exp` meet
these. A volatility is whatever three functions it is; only the constant one is
modelled. Black's formula is proved to be the expected payoff.

## Portfolios (C169–C175)

An instrument is its type with the fields the portfolio, the match parameter
and the engine look at. `firsts` says what "each once, in order of first
appearance" means, `needs` which curves an instrument needs.

## The volatility surface (C176–C181)

The surface is its dates, times, moneyness grid and volatilities, the spot it
was made at and one interpolator per tenor. The market it looks at (price,
dividend, two curves, evaluation date) is an argument: the source holds
references. `tame` bounds the numbers; `laid` (QVolProofs) is the exact
piecewise linear surface that the float surface is compared with.

## The engine (C182–)

A pricer is any function of the market and the instrument; the engine's methods
are state transformers over market, reports and the instruments in action, with
errors that keep the state reached and panics. The market is what the engine
moves: prices, curves, surfaces, dividends, date. Where a hash map is iterated the
context gives the order of its keys. `only P s s'` says that nothing but the cells
`P` of the reports has changed. Greeks are stated as a formula of prices in a
market that differs from the original in one stated way.

## Trusted base

* Coq 8.16.1 kernel (and `vm_compute`).
* `Print Assumptions` stands under every property theorem (in the `*Props*.v`
  files); each prints "Closed under the global context",
  except those about floats (C68–C76, C92–C95, C102, C108 (`c108_floats`), C113–C122, C124–C141, C144–C152, C157–C168, C174, C176–C181, C185–C189, C191–C210, C215–C219), which use the axioms of the standard
  library's reals: `ClassicalDedekindReals.sig_not_dec`,
  `ClassicalDedekindReals.sig_forall_dec`,
  `FunctionalExtensionality.functional_extensionality_dep` and
  `Classical_Prop.classic`. Flocq and Coquelicot themselves add no axiom.
  `coqchk` also lists, for these files, the standard library's sealed fields
  `Coq.Reals.Rdefinitions.RbaseSymbolsImpl.*`, `RinvImpl.*` and
  `Coq.ssr.ssrunder.Under_rel.*`; no theorem assumes anything about them
  beyond what the library proves. `coqchk -o` lists
  seven axioms of the standard library's `ssrunder` module, loaded through
  std++'s use of ssreflect; no theorem here depends on them.
* The reading of the Rust sources recorded in the comments (file, lines).
* The reading of the English properties recorded in the `*Spec.v` files and in
  the definitions next to the theorems.

## Modelled / not modelled

Modelled: `orderbook/{level,half_book,mod}.rs`, the order and snapshot types;
`utils/numeric_converter.rs`; `types/timestamp.rs` (DateUnixNanoGenerator);
`data/checker.rs`, `data/{quote,trade,trade_quote}.rs`, `data/krx/*`;
`types/id/isin_code.rs`; `spinqueue.rs`; `utils/counter.rs`; the civil-time part
of `utils/timer.rs`; `diff_in_*` of `types/timestamp.rs`; `TradeHistory` averages
and `VirtualOrderId` of `types/base.rs`; `types/id/*`, `types/venue.rs`, `Currency`;
the thread, channel, level filter and shutdown of `logger.rs`; `communication/udp_client.rs`
(the socket as the queue of what came and what went);
`feature/{tick,weight,weighted_valuation}.rs`;
`quantlib/src/time/{calendar,calendar_trait,jointcalendar,holiday}.rs`,
`time/calendars/*`, `utils/string_arithmetic.rs`, `time/conventions.rs`
(PaymentFrequency, day counts), `instruments/schedule.rs` (build_schedule), `utils/find_index.rs`,
`utils/find_index_ndarray.rs`, `math/interpolators/*`, `utils/distribute_value.rs`, `util.rs` (is_ndarray_sorted,
min_offsetdatetime, to_yyyymmdd_int), `parameters/discrete_ratio_dividend.rs`, `parameters/market_price.rs`,
`evaluation_date.rs`, `data/vector_data.rs` (new), `parameters/zero_curve.rs`, `parameters/past_price.rs`, `data/daily_value_data.rs` (insert, ordering), `parameters/rate_index.rs` (get_coupon_amount), `instruments/schedule.rs`, `instruments/bond.rs` (new, new_from_conventions, get_cashflows), `pricing_engines/bond_pricer.rs`, `npv_result.rs`, `krx_yield_pricer.rs` (npv), `instruments/ktbf.rs`, `pricing_engines/ktbf_pricer.rs`, `currency.rs`, `utils/number_format.rs`, `instruments/plain_swap.rs` (new, new_from_conventions, cash flows), `pricing_engines/plain_swap_pricer.rs`, `instruments/{futures,fx_futures,vanilla_option}.rs`, `pricing_engines/{futures,fx_futures,identity,unit,option_analytic}_pricer.rs`, `parameters/volatilities/constant_volatility.rs`, `parameters/quanto.rs`, the selections of `instrument.rs`, `pricing_engines/match_parameter.rs`, the exchange rates of `pricing_engines/engine.rs`, the distribution of `pricing_engines/engine_generator.rs`, `parameters/volatilities/local_volatility_surface.rs`, `data/surface_data.rs`, `pricing_engines/engine.rs` (from with_instruments on), the setters of `pricing_engines/calculation_result.rs`, the checks and the setters of the bumps of `pricing_engines/calculation_configuration.rs`, `representation_currency_conversion` (C195), `with_parameter_data` and `initialize_pricers` of `pricing_engines/engine.rs` (C196, C197), `pricing_engines/pricer_factory.rs` (C198), `pricing_engines/engine_generator.rs` (C199, C200; the threads are an interleaving of the groups' critical sections, with rayon's early end after an error; a thread that panics is left out, the pricing formulas are arbitrary functions of what a pricer can read), `math/cholescky_factorization.rs` (C201–C203), `pricing_engines/montecarlo/rand_generator.rs` (the draws and the order of summation of ndarray's `dot` are arbitrary), `pricing_engines/krx_yield_pricer.rs` (cost, gradient, find_bond_yield; argmin's search is assumed to try any parameters, keep the best and stop at its target or its limit), `utils/make_fx.rs`, and of trading-engine `data/krx/interface_map.rs`, `utils/lazy_string.rs` (once_cell's cell as documented), `types/enums.rs`, `conductor/oms/account.rs`.
Not modelled: memory layout, hashing (maps are finite maps), allocation
failure, `Display`/`Debug`/serde, logging text, real clocks, threads and
the system's side of sockets. In the order book
model `InstId` is an arbitrary id; interning itself is `IdModel.v`.
