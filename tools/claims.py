m("C01","proved",["C01_book_refines_exchange"],"Histories of valid requests (market sells excluded: see C03; preconditions in OBSpec.valid).")
m("C02","proved",["C02_totals_are_exact"])
m("C03","partial",["C03_market_sell_refuted","C03_market_sell_checked_panics_iff","C03_market_sell_release_partial"],
  "REFUTED for the code as it stands: the bid level's quantity is decremented twice. Proved: exactly which sells panic in the overflow-checked build; in the release build everything except the touched levels' quantity field is right.")
m("C04","proved",["C04_best_price_is_best"])
m("C05","proved",["C05_index_is_coherent","C05_ids_are_unique"])
m("C06","proved",["C06_limit_price_protection"])
m("C07","proved",["C07_limit_conserves_quantity","C07_market_buy_conserves_quantity"],"Market sells: C03.")
m("C08","proved",["C08_never_crosses"])
m("C09","partial",["C09_limit_order_dropped_refuted","C09_trades_or_rests_partial"],"REFUTED at one point (opposite side empty and extreme i64 limit: the order vanishes); proved everywhere else.")
m("C10","proved",["C10_cancel_removes_exactly_one"])
m("C11","proved",["C11_modify_same_price_keeps_place","C11_modify_new_price_is_cancel_then_limit","C11_modify_unknown_id_changes_nothing"])
m("C12","proved",["C12_remove_any_takes_the_youngest"])
m("C13","partial",["C13_zero_quantity_stale_index_refuted","C13_zero_quantity_spins_refuted","C13_phantom_level_refuted"],"REFUTED: three witnesses (get_order panics, remove_order never ends, phantom level). For positive quantities the property is C01/C05/C12.")
m("C14","proved",["C14_decomposition_reaches_the_snapshot"])
m("C15","proved",["C15_decomposed_orders_replay"])
m("C16","proved",["C16_snapshot_update_equals_snapshot"])
m("C17","partial",["C17_snapshot_on_multi_order_level_refuted","C17_snapshot_with_padding_row_refuted"],"REFUTED in both directions; the case that holds is C16.")
m("C18","proved",["C18_wrong_instrument_is_rejected","C18_right_instrument_is_accepted"])
m("C19","proved",["C19_virtual_ids_never_reused","C19_new_orders_carry_new_ids","C19_virtual_id_collision_refuted"],"Also shown: virtual ids are not kept apart from real order ids (collision witness).")
m("C20","proved",["C20_level_snapshots_sorted_and_complete"])
m("C21","proved",["C21_eq_level_decides_level_equality","C21_eq_level_asymmetric_refuted"],"On books reachable by valid requests; with zero-quantity levels it is not symmetric (witness).")
m("C22","partial",["C22_default_book_refuted"],"REFUTED.")
m("C23","proved",["C23_digit_field_reads_its_number"])
m("C24","partial",["C24_point_is_removed","C24_trailing_point_17_refuted"],"Proved for every width and point position but one; REFUTED for 17 columns ending in the point.")
m("C25","partial",["C25_converter_reads_its_field","C25_every_accepted_config_refuted"],"Proved for the supported configurations (all KRX ones among them); REFUTED for some accepted ones (leading columns longer than the number: always panics).")
m("C26","partial",["C26_sign_column","C26_plus_sign_refuted"],"Proved: '0' positive, everything else negative. REFUTED for '+' and for a digit in the sign column.")
m("C27","partial",["C27_unchecked_agrees_on_plain_fields","C27_unchecked_on_other_fields_refuted"],"Proved for plain digit fields; REFUTED for signed/padded/dotted fields, on which the code does use them (stock quotes, C33+).")
m("C28","proved",["C28_clock_reading"])
m("C29","proved",["C29_stream_is_stamped_exactly"])
m("C30","partial",["C30_overnight_gap_refuted","C30_late_message_refuted","C30_no_jump_back_by_15_hours_partial"],"REFUTED (overnight gap of 17 h, late message); the bound that does hold is the _partial theorem.")
m("C31","partial",["C31_seoul_offset_refuted"],"REFUTED: the KRX offset is added instead of subtracted, every stamp is 18 h late. For offset 0 the reading is exact (C28, C29).")
m("C32","proved",["C32_derivative_quote_is_decoded","C32_level_cut_accepted_iff"],"The stamp is the one of C28 with the KRX offset (which is itself wrong: C31).")
m("C33","proved",["C33_derivative_trade_quote_is_decoded"])
m("C34","partial",["C34_derivative_trade_buffer_is_decoded","C34_derivative_trade_all_but_price_partial","C34_derivative_trade_price_refuted"],"Proved for to_trade_data_buffer. REFUTED for to_trade_data: it reads the price with the unchecked digit reader and is wrong for every price (except 0 in decimal-free products); all other fields proved.")
m("C35","partial",["C35_stock_quote_all_but_price_partial","C35_stock_price_refuted"],"REFUTED for prices: v is reported as v/100 for every stock quote (leading-column configuration applied to the trailing end); everything else proved.")
m("C36","proved",["C36_well_framed_payload_never_panics"])
m("C37","partial",["C37_badly_framed_payload","C37_truncated_payload_is_an_error_refuted"],"REFUTED: the error path slices and UTF-8-unwraps the payload; truncated payloads always panic. Exact characterisation proved for every parser.")
m("C38","proved",["C38_buffer_holds_the_message_then_old_levels","C38_session_leaves_the_last_message"])
m("C39","partial",["C39_effective_levels_refuted","C39_trade_quote_converter_refuted"],"REFUTED: the cut of the buffer is never updated (every buffer with more levels than the cut shows old levels), and IFMSRPD0038 never writes the converters.")
m("C40","proved",["C40_level_cut_keeps_the_first_levels"])
m("C41","proved",["C41_message_sets_the_book"])
m("C42","proved",["C42_no_data_race"],"Memory model: one release/acquire atomic with stale reads and arbitrary placement of stores in modification order; stronger guarantees of C11 are not used.")
m("C43","proved",["C43_exclusion"])
m("C44","proved",["C44_exactly_once_in_order"])
m("C45","proved",["C45_no_deadlock","C45_waiting_item_visible"])
m("C46","partial",["C46_construction","C46_pointer_valid","C46_default_pointer_refuted"],"Proved for new; REFUTED for DataSpinQueue::default(), whose get_mut returns Some(null).")
m("C47","partial",["C47_done_is_private","C47_default_identity_refuted"],"Proved for identities from WorkerId::new; REFUTED for WorkerId::default(), which clears every worker's flag.")
m("C48","partial",["C48_unregistered_gets_nothing","C48_initial_datum_refuted"],"First half proved; second half REFUTED: every get before the first notification returns None.")
m("C49","partial",["C49_unguarded_use_refuted"],"REFUTED by three reachable races; under the contract it is C42.")
m("C50","proved",["C50_counter_once_each","C50_unbounded_once_each","C50_virtual_ids_in_sequence"])
m("C51","partial",["C51_exhausted_stays_exhausted_refuted"],"REFUTED: the counter wraps and answers Ok below start again.")
m("C52","proved",["C52_local_time_text"])
m("C53","partial",["C53_before_1970_refuted","C53_wide_offset_refuted"],"REFUTED; the part that holds is C52.")
m("C54","proved",["C54_clock_components"])
m("C55","partial",["C55_difference_exact","C55_earlier_timestamp_refuted"],"Proved when the first timestamp is not earlier; REFUTED otherwise (panic or wrap).")
m("C56","partial",["C56_average_price","C56_average_price_refuted"],"Proved when the total value and volume fit; REFUTED for empty histories (0/0) and overflowing ones.")
m("C57","proved",["C57_equal_iff_same_instrument","C57_ids_are_permanent","C57_one_allocation_each"])
m("C58","partial",["C58_isin_accepts","C58_currency_codes","C58_deserialized_isin_refuted"],"Proved for IsinCode::new and currencies; REFUTED for deserialized codes (derive(Deserialize) skips validation; as_str is then undefined behaviour).")
m("C59","partial",["C59_ticker_identity","C59_ticker_text_refuted"],"Identity up to trailing NULs proved; REFUTED as stated (as_str always returns 32 bytes, A and A\\0 collide, no UTF-8 check).")
m("C60","proved",["C60_closed_log_is_complete","C60_single_file_is_complete","C60_shutdown_finishes"])
m("C61","proved",["C61_crash_leaves_a_prefix"])
m("C62","partial",["C62_flushing_reaches_the_file_refuted"],"REFUTED for every text under 8192 bytes: it stays in the BufWriter.")
m("C63","partial",["C63_no_file_grows_refuted","C63_limit_counts_messages_refuted"],"REFUTED: unbounded without a file; with one, the limit counts messages instead of characters.")
m("C64","proved",["C64_level_filter"])
m("C65","partial",["C65_live_logger_accepts","C65_log_after_shutdown_panics_refuted","C65_accepted_is_written_refuted"],"Proved before Close in a sane environment; REFUTED after it.")
m("C66","partial",["C66_clock_step_back_refuted"],"REFUTED with overflow checks; in a release build the thread survives (C60_shutdown_finishes with Wrapping needs no clock assumption).")
m("C67","partial",["C67_console_shows_a_prefix","C67_console_complete_refuted"],"Prefix proved; completeness REFUTED: Close does not print.")
m("C68","partial",["C68_price_order","C68_price_order_strict","C68_price_accuracy","C68_large_prices_collide_refuted"],"Order and accuracy proved for every i64, strictness up to 2^50; REFUTED beyond 2^53 (two prices become one float).")
m("C69","proved",["C69_imbalance_is_the_book_formula"])
m("C70","partial",["C70_bad_levels_are_errors","C70_with_capacity_panics_refuted","C70_short_snapshot_panics_refuted"],"Guards proved; REFUTED for features from with_capacity / default sizes and for snapshots shorter than their cut.")
m("C71","partial",["C71_feature_shows_latest_snapshot","C71_system_time_refuted"],"Everything but the system time proved; REFUTED: updates never refresh system_timestamp.")
m("C72","proved",["C72_best_and_mid"])
m("C73","partial",["C73_vwap_is_the_average_partial","C73_bids_only_refuted"],"Proved up to (1+2^-52)^(levels+7) when an ask has volume; REFUTED for a book with bids only (returns None).")
m("C74","partial",["C74_log_imbalance_partial","C74_log_imbalance_infinite_refuted"],"Finite when all quantities are positive; REFUTED when a level empties (ln 0).")
m("C75","proved",["C75_average_stays_in_range"])
m("C76","partial",["C76_decays_by_age_partial","C76_stale_timestamp_refuted","C76_sum_stale_timestamp_refuted","C76_backward_time_refuted"],"REFUTED: the timestamp is never updated, so every update decays by the age of the object; time before creation panics with overflow checks.")
m("C77","proved",["c77_leap_year","c77_last_day_of_month"])
m("C78","partial",["c78_status_is_of_the_instant","c78_null_calendar_refuted"],"Proved for every calendar but the null calendar, for which it is REFUTED: it looks at the weekday in the offset it is given.")
m("C79","proved",["c79_following"])
m("C80","proved",["c80_preceding"])
m("C81","proved",["c81_modified_following","c81_modified_preceding","c81_every_month_has_a_business_day"],"For spans up to 300 days (about 40 holidays added by hand).")
m("C82","proved",["c82_business_day_stays","c82_idempotent","c82_monotone"])
m("C83","proved",["c83_business_days_are_near","c83_unedited_spans"])
m("C84","partial",["c84_history","c84_last_call_wins_refuted","c84_null_calendar_ignores_edits"],"c84_history says what every history does: a day ever removed stays a business day. REFUTED that the last call wins; the null calendar ignores edits.")
m("C85","proved",["c85_joint_is_union","c85_order_irrelevant","c85_two_is_business_day","c85_new"])
m("C86","proved",["c86_settlement","c86_federal_reserve"])
m("C87","partial",["c87_actual","c87_nyse_partial","c87_government_bond_partial","c87_good_friday_refuted"],"c87_actual gives the exact days. REFUTED: the Western and Orthodox Easter tables are swapped, so these calendars close on Orthodox Good Friday and are open on Good Friday; all other days proved (election day see C88).")
m("C88","partial",["c88_election_day_partial","c88_election_day_refuted"],"Proved unless 1 November is a Tuesday; REFUTED then (1960: closed on the 1st, open on the 8th).")
m("C89","partial",["c89_settlement","c89_krx","c89_lunar_tables","c89_lunar_holidays_after_2050_refuted"],"Proved 1951-2050 (the tables' years); REFUTED after 2050: no lunar holiday and no year-end closing.")
m("C90","proved",["c90_display"])
m("C91","partial",["c91_offset_irrelevant_partial","c91_modified_following_refuted"],"Proved for Unadjusted, Following, Preceding; REFUTED for the modified conventions, which look at the month in the date's own offset.")
m("C92","proved",["c92_actual","c92_monotone"])
m("C93","partial",["c93_thirty360_partial","c93_street_partial","c93_thirty360_refuted","c93_street_refuted"],"Proved unless a date is the 31st (Street: unless the end is a 31st and the start a 30th or 31st); REFUTED then: Thirty360 has no 31st rule, Street answers -30 days from a 31st to itself and 30 instead of 60 from 31 January to 31 March.")
m("C94","partial",["c94_act_act_discrepancy","c94_act_act_partial","c94_act_act_refuted"],"Error at most (years+1)/2^20 when first and last year have the same length; REFUTED otherwise: the code splits at 31 December, so it is off by exactly 1/len(last) - 1/len(first).")
m("C95","partial",["c95_time_discrepancy","c95_time_partial","c95_additive","c95_negative_time_refuted","c95_earlier_year_refuted"],"Additivity proved always, accuracy when first and last year have the same length; REFUTED: a minute across New Year 2024 is negative, and the difference to any earlier year is 0.")
m("C96","partial",["c96_read_as_written","c96_no_number_panics","c96_no_period_panics","c96_malformed_refuted"],"Well-formed strings proved; REFUTED for malformed ones: \"-1M\", \"1.5Y\" and \"1YM\" are accepted (the sign, the digits before the point or the unit without number are dropped).")
m("C97","partial",["c97_add_months","c97_months_after_unique","c97_monotone","c97_month_numbers","c97_wrap_refuted"],"Proved below 2^31; REFUTED beyond: the number is cast to i32 and 4294967297 years add one.")
m("C98","proved",["c98_shift","c98_undo"])
m("C99","partial",["c99_left_to_right_partial","c99_time_lost_refuted"],"Proved when no Y or M follows a time unit; REFUTED otherwise: the time of day is reset to the original's by a later Y or M.")
m("C100","partial",["c100_sub_years","c100_sub_months_partial","c100_sub_months_refuted","c100_undo_partial"],"Years proved; months proved up to the date's month + 11; REFUTED beyond: the result is exactly a year too late, unless the month reached is January (month - n = 1 mod 12).")
m("C101","partial",["c101_dates_agree","c101_hours_refuted"],"Proved for Y, M, W, D; REFUTED for hours, minutes, seconds: the functions on dates ignore them (\"1D30h\" is one day) or panic (\"48h\").")
m("C102","proved",["c102_period_in_years","c102_error"])
m("C103","partial",["c103_multiple","c103_steps","c103_none_panics","c103_year_partial","c103_year_refuted"],"Years proved for the frequencies in months; REFUTED for SemiMonthly (two weeks: 24 steps are 336 days) and Daily (252 calendar days).")
m("C104","partial",["c104_forward","c104_contiguous","c104_empty","c104_fixing","c104_single_refuted","c104_payment_gap_refuted"],"Proved but for two clauses; REFUTED: a single coupon ends a full step after the effective date, beyond maturity; the last coupon pays at maturity, without gap and even on a holiday.")
m("C105","proved",["c105_refused","c105_answers","c105_unadjusted","c105_modified","c105_error_cases"],"Generating forward, at least 2 spans + gaps + 500 days from the ends of the calendar. c105_error_cases shows errors one might not expect (daily coupons over a weekend).")
m("C106","proved",["c106_backward","c106_empty"])
m("C107","partial",["c107_long_backward_refuted"],"REFUTED: for every frequency of 1 to 6 months, if a step still lies after the effective date when it is the last within month + 11 months of maturity, no schedule is returned (an error or a panic): sub_period is a year off there (C100).")
m("C108","partial",["c108_answers","c108_empty","c108_place","c108_sorted_partial","c108_floats","c108_repeated_refuted"],"Proved for strictly sorted arrays; with repeated elements an index with v[i] <= x <= v[i+1] (c108_sorted_partial), but REFUTED that it is the documented one. An empty array panics.")
m("C109","partial",["c109_answers","c109_empty","c109_same","c109_unsorted_refuted"],"Proved for strictly sorted arrays and sorted values; REFUTED with repeated elements and for unsorted values (which get index 0).")
m("C110","proved",["c110_new","c110_sorted"])
m("C111","proved",["c111_answers","c111_value","c111_unique","c111_knot","c111_constant"],"Strictly sorted knots.")
m("C112","partial",["c112_same","c112_constant","c112_answers","c112_extrapolation_refuted"],"Proved without extrapolation values or for points inside; REFUTED with them: from three points on the vectorized version ignores the extrapolation values.")
m("C113","partial",["c113_new","c113_empty_refuted","c113_answers","c113_single_refuted","c113_single"],"Proved from two knots on; REFUTED for none (new panics) and for one with linear extrapolation (every x panics).")
m("C114","proved",["c114_accurate"])
m("C115","partial",["c115_knots","c115_last","c115_last_refuted","c115_steep_refuted"],"Proved for all knots but the last one, and for the last one with extrapolation; REFUTED for the last knot without extrapolation (an error) and for slopes that overflow (NaN).")
m("C116","proved",["c116_same"])
m("C117","proved",["c117_outside"],"The continuation is stated as the f32 expression, its rounding is not bounded.")
m("C118","partial",["c118_new","c118_empty_refuted","c118_rect","c118_unsorted_refuted","c118_answers"],"REFUTED for no knots (panic) and for the table constructor's t knots, which are not checked to be sorted; the rest proved.")
m("C119","proved",["c119_accurate"])
m("C120","partial",["c120_edges","c120_inside","c120_knots","c120_last_refuted"],"Proved but for the last t knot; REFUTED there: without extrapolation it is an error.")
m("C121","partial",["c121_mismatch","c121_empty","c121_ends","c121_inside","c121_answers","c121_single_refuted","c121_repeated_refuted"],"Proved for strictly sorted grids; REFUTED: a NaN location panics on a one-entry vector, and repeated grid points turn entries into NaN.")
m("C122","proved",["c122_shares","c122_conserved"])
m("C123","proved",["c123_value","c123_order","c123_min"])
m("C124","partial",["c124_ratio","c124_none","c124_many","c124_errors","c124_unsorted","c124_repeated_refuted"],"Proved for dates on strictly increasing days, not all past; REFUTED with two dividends on a day: on that day one of them is missing.")
m("C125","partial",["c125_ends","c125_all_past_refuted","c125_update_panics_refuted","c125_set_date_panics_refuted"],"The loop ends; otherwise REFUTED: new, update_evaluation_date and so set_date panic (index out of bounds) when all dividends are past.")
m("C126","partial",["c126_bump","c126_bad_window","c126_history","c126_zero_bump_refuted","c126_failed_bump_refuted"],"Proved for finite amounts and bumps; REFUTED that a bump of 0 keeps the ratios (dividends before the evaluation date come back until the next date) and that a failing bump changes nothing.")
m("C127","proved",["c127_forward","c127_back","c127_again","c127_quiet","c127_no_dividend"])
m("C128","proved",["c128_follow","c128_round_trip","c128_factor"])
m("C129","proved",["c129_set_date","c129_succeeds","c129_ratios","c129_periods","c129_dates","c129_observers"])
m("C130","partial",["c130_ratio","c130_forward","c130_ex_date_refuted","c130_after_ex_date"],"Proved when no ex-dividend time equals the evaluation date; REFUTED there: the dividend is taken off the price and off the ratio.")
m("C131","proved",["c131_data","c131_dates"])
m("C132","proved",["c132_later","c132_zero"])
m("C133","proved",["c133_errors","c133_new"])
m("C134","proved",["c134_one","c134_today","c134_fresh","c134_cached"])
m("C135","proved",["c135_between","c135_positive"])
m("C136","partial",["c136_outside","c136_last_refuted"],"Errors outside proved; REFUTED that the last date, 100 years on, is covered: its factor is cached and never given out.")
m("C137","partial",["c137_date","c137_past","c137_past_year_refuted"],"Proved in the evaluation date's year; REFUTED for dates of earlier years: they are discounted with exactly 1.")
m("C138","proved",["c138_errors","c138_same","c138_quotient","c138_chain"])
m("C139","partial",["c139_simple_refuted","c139_continuous","c139_same_refuted","c139_short_refuted","c139_errors","c139_dates","c139_flat","c139_fifty_years_refuted"],"Continuous rates, flat curves and errors proved; REFUTED for the simple rate, which is (1 - d)/tau, d times too small; REFUTED over empty intervals (never a finite number) and below 1e-6 (growth until 1e-5 later over the shorter time).")
m("C140","proved",["c140_bump","c140_reversed","c140_dates"])
m("C141","proved",["c141_times","c141_dates","c141_short_date","c141_short_rates","c141_dummy"])
m("C142","proved",["c142_record","c142_before","c142_after","c142_ordered","c142_distinct"])
m("C143","partial",["c143_new","c143_conventions","c143_unchecked_refuted"],"Proved for new; REFUTED for new_from_conventions, which accepts bonds with neither or both rates.")
m("C144","proved",["c144_flows","c144_error","c144_half_year"])
m("C145","partial",["c145_future","c145_recorded","c145_missing_refuted"],"REFUTED where no rate is recorded: the coupon then pays a rate from the evaluation date to the end of the fixing's tenor, and fails once that has passed.")
m("C146","partial",["c146_future","c146_product","c146_zero_refuted"],"Product and mean proved; REFUTED that it always ends: a compounding tenor of 0 days never does.")
m("C147","partial",["c147_value","c147_orders","c147_priced","c147_errors","c147_order_refuted"],"Proved up to rounding; REFUTED exactly: the value depends on the iteration order of the hash map.")
m("C148","partial",["c148_items","c148_expected","c148_distinct","c148_same_day_refuted"],"Proved for results of the bond pricer; REFUTED for results with two amounts on one day: one is lost, which one depends on the iteration order.")
m("C149","partial",["c149_no_curve_refuted","c149_no_rate_refuted"],"REFUTED: a floating bond without forward curve, and a bond without rate (which new_from_conventions makes), panic.")
m("C150","partial",["c150_frequency","c150_price","c150_par","c150_falls","c150_overflow_refuted"],"Proved in range; REFUTED when years times frequency overflow i32: debug builds panic.")
m("C151","partial",["c151_price","c151_matured_refuted","c151_no_frequency_refuted"],"Formula proved; REFUTED for a bond that matures on the pricing day (NaN) and for frequency None at a positive yield (price 0).")
m("C152","partial",["c152_new","c152_price","c152_no_bonds_refuted"],"Construction and price proved; REFUTED that it can always be priced: an empty basket is accepted and panics.")
m("C153","proved",["c153_code","c153_equal","c153_round_trip","c153_distinct","c153_read"])
m("C154","partial",["c154_reciprocal","c154_read","c154_round_trip","c154_distinct","c154_panics","c154_serialized_refuted"],"Display and reading proved; REFUTED for serialization, which puts an underscore between the codes: read back, the second currency is NIL.")
m("C155","proved",["c155_grouped","c155_digits_kept","c155_unique"])
m("C156","partial",["c156_new","c156_one_kind","c156_conventions","c156_two_currencies_refuted","c156_fx_conventions_refuted"],"Proved for new and for schedules that fit; REFUTED for new_from_conventions: it makes an IRS of two currencies that new refuses, and cannot make an FxSwap, FxForward or FxSpot (an error, or a panic with no frequency).")
m("C157","partial",["c157_flows","c157_no_rate","c157_error","c157_coupon","c157_overwritten_refuted","c157_amounts_refuted"],"Proved if the two exchanges fall on different points in time; REFUTED otherwise (the second overwrites the first), and REFUTED for rows with an amount, which is ignored.")
m("C158","partial",["c158_flows","c158_no_index","c158_coupon","c158_seasoned_refuted","c158_no_curve_refuted"],"Proved up to the effective day; REFUTED after it (coupons are then on 1, not on the initial amount) and without forward curve (a panic).")
m("C159","proved",["c159_value","c159_orders","c159_forward","c159_errors"])
m("C160","partial",["c160_items","c160_expected","c160_forward_refuted"],"List and value proved; REFUTED for two flows on one day, as in every FX forward: only one of them is expected, depending on the iteration order.")
m("C161","proved",["c161_exposure","c161_adds_up","c161_errors"])
m("C162","partial",["c162_value","c162_dividends","c162_errors","c162_past","c162_today","c162_past_year_refuted"],"Proved from today on and for earlier days of the year; REFUTED for maturities in an earlier year: the forward is then today's spot price.")
m("C163","partial",["c163_npv","c163_exposure","c163_panics_refuted"],"Values proved; REFUTED for an error of the forward: fx_exposure panics.")
m("C164","partial",["c164_npv","c164_exposure","c164_adds_up","c164_errors","c164_notional_refuted","c164_one_currency_refuted","c164_pair"],"Proved per unit of notional; REFUTED: the exposure takes no account of the notional, and with one currency on both sides what is to be paid is lost.")
m("C165","proved",["c165_identity","c165_unit","c165_exposure"])
m("C166","proved",["c166_errors","c166_parity"])
m("C167","proved",["c167_value","c167_expected","c167_bounds","c167_vega"])
m("C168","partial",["c168_expiry","c168_past","c168_quanto_missing","c168_quanto_shift","c168_new","c168_at_the_money_refuted","c168_past_year_refuted","c168_quanto_refuted"],"Payoff on the last day proved if the strike is not the forward; REFUTED if it is (the price is not a number), for maturities in an earlier year (priced as if today were the last day) and for quanto data, which do not move the forward that is paid: call less put does not depend on them.")
m("C169","proved",["c169_underlyings","c169_fx_codes","c169_quanto_pairs","c169_vol_underlyings","c169_types","c169_kinds","c169_meaning"])
m("C170","partial",["c170_listed_partial","c170_swap_refuted"],"Own and futures currencies proved; REFUTED for swaps: the list asks for the type PlainSwap, which no swap answers to, so a floating leg's currency is never listed.")
m("C171","proved",["c171_underlying","c171_currency","c171_types","c171_upto","c171_over","c171_halves"])
m("C172","proved",["c172_shortest","c172_longest"])
m("C173","partial",["c173_names","c173_users","c173_repeated_refuted"],"Names and users proved; REFUTED that a user is listed once: an interest rate swap is listed twice for the curve of its index.")
m("C174","proved",["c174_rate","c174_missing","c174_direct"])
m("C175","proved",["c175_groups","c175_fails"])
m("C176","partial",["c176_builds","c176_accurate","c176_knots","c176_moneyness","c176_between","c176_answers","c176_no_tenor_refuted"],"Accuracy, knots, bounds and totality proved; REFUTED that building answers without tenors: a surface without tenors is accepted and panics when it is built.")
m("C177","proved",["c177_grid","c177_flat","c177_option"])
m("C178","proved",["c178_shape","c178_grid","c178_quotes","c178_round_trip"])
m("C179","partial",["c179_unsorted","c179_stale","c179_no_spot","c179_accepted","c179_repeated_refuted"],"Unordered, stale and spotless quotes are refused; REFUTED for a repeated strike: it is accepted and makes a volatility that is not finite.")
m("C180","partial",["c180_cells","c180_shape","c180_adjacent_times","c180_adjacent_moneyness","c180_surface","c180_undone","c180_lower_refuted","c180_undone_refuted"],"Window, shape and size of the move proved; REFUTED that the row at the lower time is bumped, as the source says, and that the opposite bump restores the grid exactly: within two roundings is proved.")
m("C181","partial",["c181_moneyness","c181_strike","c181_stale_refuted"],"Proved for a surface built at the price; REFUTED if only the price moves, as in the engine's delta: the surface is not built again, and the volatility of a strike changes.")
m("C182","partial",["c182_value","c182_stays","c182_refused","c182_same_code_refuted","c182_twice_refuted"],"Proved for distinct codes and the first calculation; REFUTED for two instruments of one code (both get the second's notional) and for a second calculation after a greek, which fails as only the last underlying's instruments are priced.")
m("C183","proved",["c183_exposure","c183_own"])
m("C184","partial",["c184_linear","c184_delta","c184_calculated","c184_failure_refuted"],"Proved for calculations that succeed; REFUTED for one that fails: the price stays bumped.")
m("C185","proved",["c185_slope","c185_units","c185_delta","c185_gamma","c185_quadratic"])
m("C186","partial",["c186_rho","c186_calculated","c186_restored","c186_restored_refuted"],"Proved up to rounding; REFUTED as an exact restoration: a curve bumped up and down may differ in the last place.")
m("C187","proved",["c187_vega","c187_calculated","c187_restored"])
m("C188","partial",["c188_div","c188_calculated","c188_restored","c188_past_refuted","c188_no_dividend_refuted"],"Proved for dividends after the evaluation date; REFUTED: the bump and its opposite bring back the dividends before the evaluation date, and an underlying without dividends panics.")
m("C189","proved",["c189_rho_ladder","c189_calculated","c189_windows","c189_restored"])
m("C190","proved",["c190_div_ladder","c190_calculated"])
m("C191","partial",["c191_vega_ladder","c191_calculated","c191_left","c191_restored_refuted"],"REFUTED in part: at the end the whole surface is lowered, so every volatility after the last tenor is left one bump too low (c191_left gives the cell after the calculation, c191_restored_refuted a run)")
m("C192","partial",["c192_theta","c192_calculated","c192_without_prices","c192_restored","c192_restored_refuted","c192_per_day_refuted"],"REFUTED in part: the prices come back only up to rounding (c192_restored gives the error, c192_restored_refuted a run with another price); the time is counted in years of 365 or 366 days but divided by 365, so in a leap year theta is not for one day (c192_per_day_refuted)")
m("C193","partial",["c193_vega_matrix","c193_calculated","c193_bump_refuted","c193_restored_refuted","c193_underlyings_refuted"],"REFUTED in part: the bump of the ladder is used, the bump configured for the matrix is never read (c193_bump_refuted); tenors that are left out and cells beyond the last tenor or moneyness are lowered at the end without having been raised (c193_restored_refuted); with several underlyings an instrument is given its old matrix again under the later ones (c193_underlyings_refuted)")
m("C194","partial",["c194_taken","c194_setters","c194_numbers_refuted","c194_later_refuted","c194_zero_bump"],"REFUTED in part: a bump that is NaN is taken (c194_numbers_refuted); the with_ methods check nothing (c194_later_refuted), and by a bump of zero no sensitivity is a number (c194_zero_bump)")
m("C195","partial",["c195_converted","c195_rounding","c195_npv_refuted","c195_units_refuted","c195_unset_refuted","c195_back_refuted"],"REFUTED in part: the net present value and the cashflows are not converted (c195_npv_refuted), so the value is no longer that of the units (c195_units_refuted); a report without a currency panics (c195_unset_refuted); there and back is not the identity (c195_back_refuted)")
m("C196","proved",["c196_prices","c196_dividends","c196_curves","c196_rates","c196_surfaces","c196_quantos","c196_observed"],"hash maps are functions; the order in which they are iterated is arbitrary")
m("C197","partial",["c197_error","c197_success","c197_borrowing_refuted"],"REFUTED in part: the curve that the borrowing of an underlying is mapped to is not loaded for that reason, so such an engine fails although the data have the curve (c197_borrowing_refuted)")
m("C198","partial",["c198_right","c198_made","c198_each","c198_irs_refuted","c198_settled_refuted","c198_ktbf_refuted","c198_issuer_refuted","c198_stock_refuted","c198_futures_refuted"],"REFUTED in part: no pricer for an interest rate swap, an option settled daily, a KTB futures or a bond whose issuer is not mapped; a stock is looked up by its own code and not by its underlying's; futures without an underlying panic; one instrument without a pricer ends it for all")
m("C199","partial",["c199_each","c199_portfolio","c199_error","c199_success","c199_ends","c199_failure_refuted","c199_same_code_refuted","c199_undistributed_refuted","c199_replaced_refuted","c199_lost_refuted"],"REFUTED in part: after an error what is reported depends on the schedule (c199_failure_refuted) and earlier reports are gone (c199_lost_refuted); for one code in two groups either report may win (c199_same_code_refuted); calculate without distribute_instruments succeeds with nothing (c199_undistributed_refuted) or with the old portfolio (c199_replaced_refuted). Proved else")
m("C200","partial",["c200_value","c200_delta","c200_categories","c200_theta_refuted"],"REFUTED for theta, which depends on what else is in the group (c200_theta_refuted). Price, value, delta and gamma are proved")
m("C201","proved",["c201_factor","c201_entries","c201_definite"],"the backward error bound of Cholesky, with underflow")
m("C202","partial",["c202_lower","c202_square","c202_path","c202_symmetric_refuted","c202_refuses_refuted","c202_takes_refuted","c202_finite_refuted"],"REFUTED in part: symmetry is not checked (c202_symmetric_refuted), a positive definite matrix may be refused (c202_refuses_refuted), an indefinite one taken (c202_takes_refuted), and a finite one may give NaN (c202_finite_refuted)")
m("C203","proved",["c203_factored"],"by a vector that shows what is left of each diagonal entry")
m("C204","proved",["c204_generated","c204_inputs","c204_terms","c204_stock","c204_cash","c204_futures","c204_option","c204_bond","c204_swap","c204_fx_futures"],"the engine of C178-C200 with the pricers of C147-C168 in it")
m("C205","proved",["c205_stock","c205_futures","c205_fx_futures","c205_bond","c205_swap","c205_option"],"C204 with the error bounds of the pricers")
m("C206","proved",["c206_parity"],"C204 with the parity of the analytic pricer")
m("C207","partial",["c207_same","c207_bond","c207_order_refuted"],"REFUTED that the report of a bond is determined by the data: two orders of iteration give 16777216 and 16777218 (c207_order_refuted). For the others it is (c207_same), and c207_bond bounds the difference")
m("C208","proved",["c208_linear","c208_option"],"C184 with the pricers of the library")
m("C209","partial",["c209_same","c209_repriced","c209_tried","c209_least","c209_gradient","c209_not_refuted"],"REFUTED that the yield returned reprices the bond: the cost at the end of the search is not looked at, and a search that ends after its iterations returns the best so far (c209_not_refuted: the guess, half off the price). What the search of argmin does is assumed as stated in QSeekModel.v")
m("C210","proved",["c210_falls","c210_unique"],"")
m("C211","partial",["c211_once","c211_rule","c211_derivatives","c211_both_refuted"],"REFUTED for one product: the 14th has codes for trades and for quotes but none for both, G714F is not in the map (c211_both_refuted)")
m("C212","proved",["c212_once","c212_waits","c212_round"],"the cell is once_cell's, as documented")
m("C213","proved",["c213_pairs","c213_once","c213_included"],"")
m("C214","proved",["c214_round","c214_opposite","c214_balance"],"")
m("C215","proved",["c215_view","c215_option"],"theta is excluded, it may leave other prices behind (C192)")
m("C216","proved",["c216_view","c216_futures","c216_option","c216_fx_futures","c216_bond","c216_swap"],"theta is excluded, it may leave other prices behind (C192); a bump up and down again may leave rounding (C185)")
m("C217","proved",["c217_view","c217_futures","c217_option"],"theta is excluded, it may leave other prices behind (C192); what vega and rho may leave is rounding")
m("C218","proved",["c218_view","c218_zero","c218_futures","c218_option","c218_fx_futures","c218_bond","c218_swap"],"the price that is taken off may be one after a round there and back (moved_through), up to rounding that of the report (C192)")
m("C219","partial",["c219_last_dividend_refuted"],"REFUTED: if the last dividend of a stock goes ex within the theta days the process panics, though the same futures on the same data is reported without theta. (See C125.)")
m("C220","proved",["c220_text","c220_sent","c220_always_a_text","c220_unchanged_iff"],"no loss or reordering by the network in c220_sent")
m("C221","partial",["c221_cut","c221_long_refuted"],"REFUTED: two texts of 1025 bytes that differ at the end give the same response, and a text cut inside a character ends in a U+FFFD that it does not contain. c221_cut says exactly what is received of every text.")
m("C222","partial",["c222_in_order","c222_stranger_refuted"],"order and completeness are proved; REFUTED: the peer address is dropped, so a stranger's datagram is taken for the server's answer.")
