{"id": "C01", "title": "NewOrderBook returns the best MaxDepth rows of each side, stably sorted", "statement": "NewOrderBook(asks, bids, d) with 0 <= d and no NaN price returns a book whose asks are the first min(d, len) rows of the stable ascending sort of the given asks by price, and whose bids are the first min(d, len) rows of the stable descending sort of the given bids (rows compared on price and volume; the accumulated volume is recomputed). Hence no row on the wrong side of the cut is kept and equal prices keep their input order. A negative d panics.", "quantifier": "every pair of row slices with non-NaN prices and every int depth", "why_tests_cant": "the input slices are unbounded and the stable order must hold for every arrangement of ties", "anchors": ["market/orderbook.go:NewOrderBook", "market/orderbook.go:OrderBook.sort"]}
{"id": "C02", "title": "Accumulated volumes of a new book are the running totals", "statement": "In the book returned by NewOrderBook, row i of each side carries AccumVolume equal to the left-to-right float64 running sum of the volumes of rows 0..i of that side; read in exact arithmetic that is the sum of those volumes, so it is non-decreasing when volumes are non-negative.", "quantifier": "every pair of row slices and every depth >= 0", "why_tests_cant": "unbounded slices, all volume values", "anchors": ["market/orderbook.go:OrderBook.sort", "market/orderbook_types.go:OrderBookRow"]}
{"id": "C03", "title": "Every update history keeps both sides sorted by price without duplicates", "statement": "Starting from a book whose asks are strictly ascending and bids strictly descending (for instance an empty one), after any sequence of ApplyUpdate calls with non-NaN prices the asks are strictly ascending and the bids strictly descending. If the initial book may hold equal prices, the non-strict order is kept.", "quantifier": "every well-ordered initial book with MaxDepth >= 0 and every finite sequence of updates with non-NaN prices, any volumes, any side strings", "why_tests_cant": "a statement about all histories; the insertion code has five paths per side", "anchors": ["market/orderbook.go:OrderBook.ApplyUpdate", "market/orderbook.go:OrderBook.removeInvalid"]}
{"id": "C04", "title": "No side ever exceeds MaxDepth", "statement": "From a book whose sides have at most MaxDepth rows, after every sequence of ApplyUpdate calls neither side has more than MaxDepth rows, and MaxDepth and Time are unchanged. A MaxDepth that no side can reach (at least the rows present plus the number of updates) has no influence: all such depths give the same rows.", "quantifier": "every book with MaxDepth >= 0, every update sequence (NaN prices included)", "why_tests_cant": "all histories", "anchors": ["market/orderbook.go:OrderBook.ApplyUpdate", "market/orderbook.go:OrderBook.limit"]}
{"id": "C05", "title": "The book never becomes crossed", "statement": "From a sorted book in which every bid price is <= every ask price, after any sequence of updates with non-NaN prices every bid price is <= every ask price. The stronger claim a user would expect (every bid price < every ask price, i.e. the book is not locked either) is false: an ask update at the price of the last bid leaves that bid in place.", "quantifier": "every sorted uncrossed initial book with MaxDepth >= 0 and every update sequence with non-NaN prices", "why_tests_cant": "all histories", "anchors": ["market/orderbook.go:OrderBook.ApplyUpdate", "market/orderbook.go:OrderBook.removeInvalid"]}
{"id": "C06", "title": "An update sets, replaces or deletes exactly one price level of its own side", "statement": "For a strictly sorted side, ApplyUpdate with a non-zero volume makes the level at the update price carry exactly the update volume, leaves the price, volume and accumulated volume of all other levels of that side unchanged, and the resulting side is the first MaxDepth levels of that map in price order; with volume zero it removes the level at that price and keeps all the others.", "quantifier": "every sorted book with MaxDepth >= 0 (for deletions: with sides within MaxDepth), every update with a non-NaN price", "why_tests_cant": "refinement to a price->row map for all books and updates", "anchors": ["market/orderbook.go:OrderBook.ApplyUpdate", "market/orderbook.go:removeElement"]}
{"id": "C07", "title": "A non-zero update removes from the opposite side exactly the rows it crosses", "statement": "A user expects an update at price p to remove from the opposite side precisely the rows whose price crosses p. The code instead drops the first non-crossed row too, unless it is the last one, and keeps the last row even if its price equals p. Claim: exact characterisation of the surviving rows as a suffix of the opposite side, and a refutation of the expected statement.", "quantifier": "every sorted book with MaxDepth >= 0, every non-zero update with a non-NaN price", "why_tests_cant": "off-by-one depends on position in an unbounded slice", "anchors": ["market/orderbook.go:OrderBook.removeInvalid"]}
{"id": "C08", "title": "A zero-volume update touches nothing but its level", "statement": "ApplyUpdate with volume 0 leaves the opposite side unchanged (up to truncation to MaxDepth), and when no row of its side has the update price it leaves the whole book unchanged.", "quantifier": "every book with sides within MaxDepth and every zero-volume update", "why_tests_cant": "all books", "anchors": ["market/orderbook.go:OrderBook.ApplyUpdate"]}
{"id": "C09", "title": "An unknown side is rejected and changes nothing", "statement": "ApplyUpdate with a side other than ask or bid returns an EINVALID error and leaves the book unchanged; with side ask or bid it never returns an error.", "quantifier": "every book, every update, every side string", "why_tests_cant": "all strings", "anchors": ["market/orderbook.go:OrderBook.ApplyUpdate"]}
{"id": "C10", "title": "ApplyUpdate panics only for negative MaxDepth", "statement": "With MaxDepth >= 0, no ApplyUpdate call in any history panics (all slice expressions are in bounds), for all float inputs including NaN and infinities; with a negative MaxDepth every non-zero update panics.", "quantifier": "every book, every MaxDepth, every update history, NaN included", "why_tests_cant": "all index computations, all lengths", "anchors": ["market/orderbook.go:OrderBook.ApplyUpdate", "market/orderbook.go:OrderBook.limit", "market/orderbook.go:OrderBook.removeInvalid"]}
{"id": "C11", "title": "ApplyUpdate is idempotent", "statement": "Applying the same update twice to a strictly sorted book gives the same book as applying it once.", "quantifier": "every strictly sorted book with sides within MaxDepth, every update with non-NaN price", "why_tests_cant": "all books", "anchors": ["market/orderbook.go:OrderBook.ApplyUpdate"]}
{"id": "C12", "title": "Accumulated volumes stay correct under updates", "statement": "A user expects AccumVolume to remain the running total after ApplyUpdate. It does not: the touched row gets 0 and the others keep their old value. Claim: refutation, and the exact effect on AccumVolume: every row of a side of the updated book is a row of the same side of the old book unchanged, or, on the side updated with a non-zero volume, the new row with AccumVolume 0.", "quantifier": "every book with MaxDepth >= 0 and every update", "why_tests_cant": "all histories", "anchors": ["market/orderbook.go:OrderBook.ApplyUpdate", "market/orderbook_types.go:OrderBookRow"]}
{"id": "C13", "title": "GetDepth answers for exactly the prices inside a side's interval", "statement": "For a sorted book with both sides non-empty: GetDepth(p) with p <= 0 returns EINVALID; with p between the best and worst ask it returns the price of the highest ask at or below p; else with p between the worst and best bid it returns the price of the lowest bid at or above p; otherwise ENOTFOUND. It panics exactly when p is not <= 0 and a side is empty. (The documented result, the accumulated volume, is refuted: a price is returned.)", "quantifier": "every sorted book and every float price", "why_tests_cant": "all books and prices", "anchors": ["market/orderbook.go:OrderBook.GetDepth"]}
{"id": "C14", "title": "CalculateOverlap detects overlap exactly and is symmetric", "statement": "For non-empty books CalculateOverlap(A,B) returns ENOTFOUND with value -1 iff neither A's best ask is below B's best bid nor B's best ask below A's best bid; for two uncrossed books CalculateOverlap(A,B) = CalculateOverlap(B,A); the returned value is never negative. In every case the only panic is an index out of range, and it happens exactly when A has no asks, or B no bids, or A's best ask is not below B's best bid and A has no bids or B no asks.", "quantifier": "every pair of books", "why_tests_cant": "all pairs of unbounded books", "anchors": ["market/orderbook.go:CalculateOverlap", "market/orderbook.go:overlapCalculation"]}
{"id": "C15", "title": "CalculateOverlap values the overlapping volume", "statement": "When on each side some row lies outside the overlap, the value is |cost of all asks of A at or below B's best bid - proceeds of selling that volume into B's overlapping bids from the worst upwards|. When every row of a side overlaps a user expects the same formula, but the code counts that whole side as zero (refutation, and the value for every pair of sorted books, both ways round, with such a side counted as zero). On books of whole numbers whose totals stay within 2^53 the float64 result is exactly the value of exact arithmetic, panics and errors included.", "quantifier": "every pair of sorted books", "why_tests_cant": "all books", "anchors": ["market/orderbook.go:overlapCalculation"]}
{"id": "C16", "title": "Order books built from separate slices never influence each other; shared slices do", "statement": "In a model with explicit backing arrays: operations on a book whose asks and bids live in arrays of their own never change another book or another slice, and agree with the value-level model; but NewOrderBook reorders and overwrites the caller's slices, and updating one of two copies of a book can change the rows the other copy shows (refutation of value semantics).", "quantifier": "every heap, every history of updates on two books", "why_tests_cant": "aliasing depends on capacities and history", "anchors": ["market/orderbook.go:NewOrderBook", "market/orderbook.go:OrderBook.ApplyUpdate", "market/orderbook.go:removeElement"]}
{"id": "C17", "title": "Updates at different prices of one side commute", "statement": "For a strictly sorted side and two updates of that side at different prices, while neither crosses the other side and no truncation happens, the order of application does not matter.", "quantifier": "every sorted book and two updates", "why_tests_cant": "all books", "anchors": ["market/orderbook.go:OrderBook.ApplyUpdate"]}
{"id": "C18", "title": "Insert followed by delete restores the book", "statement": "If no row of the side has price p, the side has fewer than MaxDepth rows and p does not cross the other side, then an update (p, v<>0) followed by (p, 0) gives back the same book.", "quantifier": "every strictly sorted book", "why_tests_cant": "all books", "anchors": ["market/orderbook.go:OrderBook.ApplyUpdate"]}
{"id": "C19", "title": "ModifyInterval aggregates a partition of the input", "statement": "When ModifyInterval(candles, n) succeeds on two or more candles, the candles from the first aligned one on are split into consecutive non-empty groups, one per output candle, in order; each output has the first candle's Time and Open, the last one's Close, the highest High, the lowest Low, and the Volume of the group's float64 sum rounded to 5 decimals. Nothing after the first aligned candle is lost or counted twice.", "quantifier": "every candle slice and interval for which the call succeeds", "why_tests_cant": "unbounded series, all gaps", "anchors": ["market/candle.go:ModifyInterval", "market/candle.go:compressCandle"]}
{"id": "C20", "title": "Every output candle after the first starts on an interval boundary and only there", "statement": "A group starts exactly at those candles whose whole-minute distance from the first aligned candle is a multiple of the interval; candles inside a group never are.", "quantifier": "every candle slice and interval", "why_tests_cant": "all series", "anchors": ["market/candle.go:ModifyInterval"]}
{"id": "C21", "title": "ModifyInterval rejects or panics exactly on the unsupported inputs", "statement": "Complete decision table: empty input panics; one candle is returned unchanged; a first gap under one minute panics (division by zero) unless the interval is 1; gap <> 1 minute with interval 1, or interval not a multiple of the gap, gives ECONFLICT; no aligned candle gives EINVALID; interval 0 panics when a candle follows the first aligned one; in all other cases it succeeds. The float parse error path is unreachable.", "quantifier": "every candle slice and every int interval", "why_tests_cant": "all inputs incl. degenerate", "anchors": ["market/candle.go:ModifyInterval", "market/candle.go:findFirstIndex", "market/candle.go:compressCandle"]}
{"id": "C22", "title": "Resampling to the native interval is the identity up to volume rounding", "statement": "For a series with strictly regular spacing of n minutes starting on an aligned candle, ModifyInterval(candles, n) returns the same candles with each Volume rounded to 5 decimals.", "quantifier": "every regular series", "why_tests_cant": "unbounded length", "anchors": ["market/candle.go:ModifyInterval"]}
{"id": "C23", "title": "Resampling composes", "statement": "For a regular minute series, resampling to a and then to a*b gives the same Time/Open/High/Low/Close as resampling directly to a*b. The volumes of corresponding candles need not be equal (refuted), but differ by at most (b+2)*0.000007 + 4*(m+1)*2^-52*(sum of the magnitudes of the m source volumes).", "quantifier": "every regular series, all a, b >= 1 with compatible alignment", "why_tests_cant": "all lengths and factors", "anchors": ["market/candle.go:ModifyInterval"]}
{"id": "C24", "title": "A regular series resamples to the expected number of evenly spaced candles", "statement": "For a regular series of len candles spaced d minutes starting aligned, and interval n = k*d, the result has ceil(len/k) candles whose times are spaced n minutes, and all groups but the last hold exactly k candles.", "quantifier": "every regular series and factor", "why_tests_cant": "unbounded length", "anchors": ["market/candle.go:ModifyInterval"]}
{"id": "C25", "title": "The first output candle is aligned to the interval", "statement": "The first output candle is the first input candle whose local minute is 0 or a multiple of the interval (interval mod 60 above an hour). For intervals dividing 60 and whole-hour time zones its timestamp is a multiple of the interval; for longer intervals (e.g. 120) that expectation is false, and the choice depends on the machine's time zone when the offset is not a whole number of hours.", "quantifier": "every series, interval and local time zone", "why_tests_cant": "time zone is an environment input", "anchors": ["market/candle.go:findFirstIndex"]}
{"id": "C26", "title": "An output candle never spans more than its interval", "statement": "Expected by users; false when a candle on a boundary is missing from the input (group keeps growing); proved for regular series.", "quantifier": "every series", "why_tests_cant": "gaps at arbitrary places", "anchors": ["market/candle.go:ModifyInterval"]}
{"id": "C27", "title": "Volume is conserved up to rounding", "statement": "In exact arithmetic the total volume of the output differs from the total volume of the consumed candles by at most 0.000005 per output candle; at float64 level each output volume is within 0.000005 plus a rounding term of the float sum, and non-negative volumes give non-negative output.", "quantifier": "every series", "why_tests_cant": "unbounded sums", "anchors": ["market/candle.go:compressCandle"]}
{"id": "C28", "title": "Appending candles only changes the last output candle", "statement": "If ModifyInterval succeeds on a series and on the series extended by more candles, all output candles of the former except the last are a prefix of the latter's output (no repainting of completed candles).", "quantifier": "every series and every extension", "why_tests_cant": "all histories", "anchors": ["market/candle.go:ModifyInterval"]}
{"id": "C29", "title": "High and Low are true extremes", "statement": "For groups whose highs and lows are finite and within +-1e308, the output High is an upper bound attained by some candle of the group, and Low a lower bound attained by some candle; outside that range the sentinel values leak (refutation).", "quantifier": "every group", "why_tests_cant": "all float values", "anchors": ["market/candle.go:compressCandle"]}
{"id": "C30", "title": "GetMinInterval returns the smallest gap in whole minutes", "statement": "For two or more candles with gaps below 2^53 seconds the result is the minimum absolute time difference of neighbours divided by 60, truncated; for fewer than two candles the result is not meaningful (conversion of MaxFloat64 to int).", "quantifier": "every candle slice", "why_tests_cant": "unbounded series", "anchors": ["market/candle.go:GetMinInterval"]}
{"id": "C31", "title": "Saved candles load back identically", "statement": "For every list of candles whose times fit in 32 bits, LoadCandlesFromFile after SaveCandlesToFile (no I/O fault) returns the same list, bit for bit in every float64 (NaN included as NaN).", "quantifier": "every finite candle list, every float64 value", "why_tests_cant": "shortest-decimal formatting and parsing over all 2^64 floats", "anchors": ["market/candle_load.go:SaveCandlesToFile", "market/candle_load.go:LoadCandlesFromFile"]}
{"id": "C32", "title": "Candles with times outside 32 bits cannot be loaded back", "statement": "Save accepts any int64 time but loading a file holding a time >= 2^31 or < -2^31 returns an error (ParseInt with bitSize 32): the round trip is refuted for those.", "quantifier": "every candle list with an out-of-range time", "why_tests_cant": "the range boundary, all lists", "anchors": ["market/candle_load.go:LoadCandlesFromFile"]}
{"id": "C33", "title": "A file cut short by a crash never yields wrong complete candles", "statement": "For every byte prefix of a saved file, loading either fails (error or panic) or returns candles all of which, except possibly the last one, are the first saved candles; a user expects the last to be right as well, which is false: a cut inside the last field loads as a silently wrong volume.", "quantifier": "every candle list and every crash point (byte prefix)", "why_tests_cant": "all crash points", "anchors": ["market/candle_load.go:SaveCandlesToFile", "market/candle_load.go:LoadCandlesFromFile"]}
{"id": "C34", "title": "SaveCandlesToFile reports failed writes", "statement": "Expected by users; false: write errors are ignored and nil is returned although the file is incomplete.", "quantifier": "every I/O fault pattern", "why_tests_cant": "fault injection over all write outcomes", "anchors": ["market/candle_load.go:SaveCandlesToFile"]}
{"id": "C35", "title": "LoadCandlesFromFile fails cleanly on malformed files", "statement": "Expected: malformed lines give an error. The code panics on lines shorter than two bytes and on lines whose leading fields parse but that have fewer than six fields, ignores extra fields, and silently stops at a line of 64 KiB or more. Claim: exact classification of the outcome for each line.", "quantifier": "every file content", "why_tests_cant": "all byte strings", "anchors": ["market/candle_load.go:LoadCandlesFromFile"]}
{"id": "C36", "title": "Fee, price, quantity and cost of a trade balance", "statement": "In exact arithmetic NewTrade gives cost = price*quantity + fee for buys and cost = price*quantity - fee for every other action; all the other fields are the arguments, ExecutionID is empty.", "quantifier": "every argument", "why_tests_cant": "all values and action strings", "anchors": ["market/trade.go:NewTrade"]}
{"id": "C37", "title": "A new position mirrors its opening trade", "statement": "NewPosition(t): open, quantity, open price, pair, open time from t, type long for buy, short for sell, empty type otherwise, exactly [t.ID] as trades, profit and close price 0, the zero close time, and no take profit, stop loss, execution id or data.", "quantifier": "every trade", "why_tests_cant": "all values", "anchors": ["market/position.go:NewPosition"]}
{"id": "C38", "title": "Adding to a position gives the volume-weighted average price", "statement": "In exact arithmetic, increasing a position (same direction) with positive quantities gives quantity q+q', open price (p*q + p'*q')/(q+q'), which lies between the two prices; at float64 level quantities stay positive, but the average can leave the interval by rounding, even for two equal prices (refutation).", "quantifier": "every position and trade", "why_tests_cant": "all values", "anchors": ["market/position.go:Position.Modify", "market/position.go:Position.add"]}
{"id": "C39", "title": "Profit of a closed position equals the net cash flow of all its trades", "statement": "In exact arithmetic, for every history of same-pair buy/sell trades applied by Modify that ends by closing the position with exactly the remaining quantity, Profit = sum of sells - sum of buys over the opening trade and all recorded trades (long and short).", "quantifier": "every trade history of any length", "why_tests_cant": "histories of unbounded length", "anchors": ["market/position.go:Position.Modify", "market/position.go:Position.add", "market/position.go:Position.substract"]}
{"id": "C40", "title": "A trade larger than the position is rejected", "statement": "A reducing trade that exceeds the position by more than 0.0001 leaves the position unchanged. A user expects Modify to return the error; it returns nil (refutation): the error of the helper is dropped. Modify returns an error iff the pairs differ.", "quantifier": "every position and trade", "why_tests_cant": "all values", "anchors": ["market/position.go:Position.Modify", "market/position.go:Position.substract"]}
{"id": "C41", "title": "Trades on another pair are refused without effect", "statement": "Modify with a trade whose pair differs in any of the six asset strings returns EINVALID and leaves the position unchanged.", "quantifier": "every position and trade", "why_tests_cant": "all strings", "anchors": ["market/position.go:Position.Modify"]}
{"id": "C42", "title": "A closed position stays closed and final", "statement": "Expected: once closed, Modify has no effect. Closed is permanent (Open never becomes true again, for every history), but the fields still change: a further same-direction trade changes quantity and price, and a repeated closing trade overwrites ClosePrice, Profit and CloseTime (refutation).", "quantifier": "every history", "why_tests_cant": "all histories", "anchors": ["market/position.go:Position.Modify", "market/position.go:Position.substract"]}
{"id": "C43", "title": "Trade list records exactly the applied trades in order", "statement": "After any history, Trades is the opening trade id followed by the ids of exactly those trades that were applied (same pair, known action, known type, not over-closing), in order.", "quantifier": "every history", "why_tests_cant": "all histories", "anchors": ["market/position.go:Position.Modify", "market/position.go:Position.add", "market/position.go:Position.substract"]}
{"id": "C44", "title": "An open position always has a positive quantity", "statement": "At float64 level: for every opening trade with positive quantity and every history of trades with positive finite quantity, the quantity stays > 0 (in particular while the position is open). With infinite quantities this is false (refutation).", "quantifier": "every history, every float64 quantity", "why_tests_cant": "float comparisons over all histories", "anchors": ["market/position.go:Position.substract", "market/position.go:Position.add"]}
{"id": "C45", "title": "Unrealized profit is consistent with direction and with the realised profit", "statement": "UnrealizedProfit at the open price is zero, long and short are opposite, it is monotone in the current price when the quantity is not negative (increasing for long, decreasing for short), and the Profit stored by a closing trade equals UnrealizedProfit(trade.Price) of the position before that trade, bit for bit.", "quantifier": "every position and price (finite operands and price difference, except for the last claim)", "why_tests_cant": "all values", "anchors": ["market/position.go:Position.UnrealizedProfit", "market/position.go:Position.substract"]}
{"id": "C46", "title": "NewOrderRequest accepts exactly the valid requests", "statement": "It returns a request carrying exactly the arguments (TakeProfit and StopLoss zero) iff the base symbol, action and type are non-empty, a limit order has a non-zero price, and quantity and total are not both zero; otherwise EINVALID and nil. Of the five named order types only limit needs a price.", "quantifier": "every argument", "why_tests_cant": "all strings and floats", "anchors": ["market/order_request.go:NewOrderRequest"]}
{"id": "C47", "title": "CalculateFields completes the missing field without touching the original", "statement": "Exactly one of Total and Quantity being non-zero: the result equals the request except for the missing field, which is quantity*price or total/price, price being the current price for market orders and the request price otherwise; the receiver is unchanged; otherwise EINVALID. In exact arithmetic with non-zero price the result satisfies Total = Quantity*price. A zero price yields a non-finite quantity, not an error (refutation of the expected finiteness). Only market orders use the current price: a close_position request without a price, which NewOrderRequest accepts, is completed to a total of 0 or an infinite quantity whatever the current price (refutation of the comment on ClosePosition).", "quantifier": "every request and price", "why_tests_cant": "all floats", "anchors": ["market/order_request.go:OrderRequest.CalculateFields"]}
{"id": "C48", "title": "CalculateFields refuses an already completed request", "statement": "In exact arithmetic, applying it to its own result (price non-zero) always returns EINVALID, for every current price. In float64 the product can underflow to zero, and then the completed request is accepted again (refutation).", "quantifier": "every request", "why_tests_cant": "all values", "anchors": ["market/order_request.go:OrderRequest.CalculateFields"]}
{"id": "C49", "title": "Model updates replace the whole record or nothing", "statement": "Order/Trade/Position/Annotation.Update with a pointer of the same type makes the receiver equal to the argument in every field; with any other dynamic type returns EINVALID and changes nothing; with a nil pointer of the right type it panics. IsOpen is false exactly for fulfilled and canceled.", "quantifier": "every value", "why_tests_cant": "all dynamic types and values", "anchors": ["market/order.go:Order.Update", "market/order.go:Order.IsOpen", "market/trade.go:Trade.Update", "market/position.go:Position.Update", "strategy/annotation.go:Annotation.Update"]}
{"id": "C50", "title": "Asset constructors return the asked symbol or an error", "statement": "NewAsset succeeds iff symbol and name are non-empty and returns exactly them; NewCryptoAsset/NewForexAsset/NewStockAsset never fail with anything but ENOTFOUND, and on success return the requested symbol with a non-empty name; no symbol is known to two of the three tables.", "quantifier": "every string", "why_tests_cant": "all strings", "anchors": ["market/asset.go:NewAsset", "market/asset_helpers.go:NewCryptoAsset", "market/asset_helpers.go:NewForexAsset", "market/asset_helpers.go:NewStockAsset"]}
{"id": "C51", "title": "PairMappings maps each exchange symbol to the pair spelled by it", "statement": "Expected: for every key k of PairMappings, the pair's Symbol(\"\") is k. False for exactly one key (DYDXETH maps to OOKI/ETH); true for all the others; keys are distinct, no base equals its quote, no two keys map to the same pair.", "quantifier": "every entry of the table (finite domain)", "why_tests_cant": "1951 hand-maintained entries, no test covers them", "anchors": ["market/pair_mappings.go:PairMappings", "market/pair.go:Pair.Symbol"]}
{"id": "C52", "title": "Pair.Symbol with a fresh separator identifies the pair", "statement": "If the separator is non-empty and its first character occurs in no symbol, equal Symbol(sep) of two pairs implies equal base and quote symbols; with the empty separator this is false (refutation by collision).", "quantifier": "every pair of pairs and separator", "why_tests_cant": "all strings", "anchors": ["market/pair.go:Pair.Symbol"]}
{"id": "C53", "title": "MovingAverage is the windowed mean", "statement": "For 1 <= period <= len: the result has len-period+1 entries, entry i is the left-to-right float64 sum of closes i..i+period-1 divided by period; in exact arithmetic it is their mean and lies between their minimum and maximum; the other inputs give EINVALID.", "quantifier": "every candle slice and int period", "why_tests_cant": "unbounded series", "anchors": ["indicators/ma.go:MovingAverage", "indicators/ma.go:average"]}
{"id": "C54", "title": "ExponentialMovingAverage: length, seed and recurrence", "statement": "For 1 <= period <= len the result has len-period entries; the first is the mean of the first period closes, each next one is close*p + previous*(1-p) with p = 2/(period+1); in exact arithmetic all lie between the min and max close. Expected but false: that every candle after the seed window counts - the close at index period is never used, and for len = period the result is empty.", "quantifier": "every candle slice and period", "why_tests_cant": "unbounded series", "anchors": ["indicators/ma.go:ExponentialMovingAverage"]}
{"id": "C55", "title": "SmoothedMovingAverage: length, seed and recurrence", "statement": "For 1 <= period <= len the result has len-period+1 entries, the first being the mean of the first period closes, each next s' = (s*(period-1) + close)/period in exact arithmetic, lying between the min and max close; the error path of closingSum is unreachable.", "quantifier": "every candle slice and period", "why_tests_cant": "unbounded series", "anchors": ["indicators/ma.go:SmoothedMovingAverage", "indicators/ma.go:closingSum"]}
{"id": "C56", "title": "Moving averages have no look-ahead", "statement": "Appending candles to the input extends the output of MovingAverage, ExponentialMovingAverage and SmoothedMovingAverage without changing any earlier entry, bit for bit.", "quantifier": "every series and every extension", "why_tests_cant": "all histories", "anchors": ["indicators/ma.go"]}
{"id": "C57", "title": "ExponentialWeightedVolatility closed form and range", "statement": "In exact arithmetic the result is (1-b) * sum of b^(n-1-i) * (high_i - low_i); for 0 <= b <= 1 and high >= low it lies between 0 and the largest range; at float64 level it is non-negative for such inputs (never NaN when ranges are finite).", "quantifier": "every series and beta", "why_tests_cant": "unbounded series, float rounding", "anchors": ["indicators/ewv.go:ExponentialWeightedVolatility"]}
{"id": "C58", "title": "RSI values lie between 0 and 100", "statement": "At float64/float32 level every value RSI returns is either NaN or between 0 and 100. For closes of magnitude up to 2^1000 and windows of at most 2^20 candles it is NaN exactly when no close in the window differs from its predecessor, 100 when there are only rises and 0 when there are only falls.", "quantifier": "every series of non-NaN finite closes", "why_tests_cant": "float rounding over all windows", "anchors": ["indicators/rsi.go:calculateRSI"]}
{"id": "C59", "title": "RSI returns on every valid input", "statement": "Expected: with at least 14 candles and 1 <= period <= len RSI returns. False: it slices one past the end, so it panics whenever the slice has no spare capacity.", "quantifier": "every slice, capacity and period", "why_tests_cant": "depends on the hidden capacity of the slice", "anchors": ["indicators/rsi.go:RSI"]}
{"id": "C60", "title": "RSI has no look-ahead", "statement": "Expected: the result depends only on the candles passed. False: with spare capacity the last value reads the candle after the end of the slice (the future candle when called on a sub-slice of a longer series).", "quantifier": "every slice with spare capacity", "why_tests_cant": "hidden capacity", "anchors": ["indicators/rsi.go:RSI"]}
{"id": "C61", "title": "WilliamFractals reports exactly the documented patterns", "statement": "A fractal is reported for the candle at index i (2 <= i <= len-3) with its time and high/low iff both preceding candles are strictly lower (higher) and, scanning right, no candle exceeds it before two strictly lower (higher) candles were met. The documented requirement of two lower candles on the right is false when the scan reaches the end of data on equal prices (refutation).", "quantifier": "every candle slice without NaN", "why_tests_cant": "unbounded series, all plateaus", "anchors": ["indicators/williams_fractals.go:WilliamFractals", "indicators/williams_fractals.go:findFractal"]}
{"id": "C62", "title": "Fractals come in input order, at most one of each kind per candle", "statement": "The result lists fractals in the order of their candles, up before down on the same candle; for non-decreasing times the result is sorted by time; fewer than 5 candles give none.", "quantifier": "every candle slice", "why_tests_cant": "unbounded series", "anchors": ["indicators/williams_fractals.go:WilliamFractals", "indicators/williams_fractals.go:findFractals"]}
{"id": "C63", "title": "Confirmed fractals never repaint", "statement": "If two strictly lower (higher) candles follow before the end of data, the fractal is still reported after appending any candles; unconfirmed ones can disappear.", "quantifier": "every series and every extension", "why_tests_cant": "all histories", "anchors": ["indicators/williams_fractals.go:findFractal"]}
{"id": "C64", "title": "Adding actions loses nothing and overwrites nothing", "statement": "If the generated ids are distinct from each other and from the ids present, AddCreateOrders/UpdateOrders/CancelOrders/UpdatePositions/ClosePositions add exactly the given actions (with their fresh ids as both key and ID field, other fields unchanged) and keep all earlier entries and the other collections; AddAnnotations appends in order.", "quantifier": "every actions state and argument list, every fresh id stream", "why_tests_cant": "all histories and id streams", "anchors": ["strategy/actions.go"]}
{"id": "C65", "title": "Tick times denote the candle's instant in every time zone", "statement": "GetLocalTime and GetLocationTime denote the same instant (the candle's Unix time) whatever the zone; an unknown location gives an error; a nil candle panics.", "quantifier": "every tick and zone", "why_tests_cant": "environment input", "anchors": ["strategy/strategy.go:Tick"]}
{"id": "C66", "title": "RawDateToRFC3339 accepts exactly the valid calendar dates", "statement": "RawDateToRFC3339(s) succeeds iff s is exactly YYYY-MM-DD with a valid month and day (leap years included), and then returns midnight UTC of that day; distinct accepted strings give distinct instants, ordered as the strings, one day apart for consecutive dates.", "quantifier": "every string", "why_tests_cant": "all strings, calendar rules", "anchors": ["utils/date.go:RawDateToRFC3339"]}
{"id": "C67", "title": "String methods do not panic", "statement": "Expected: printing never panics. Position.String panics when the ID is shorter than 8 bytes (e.g. the zero value) and Balance.String when Asset is nil; never otherwise.", "quantifier": "every value", "why_tests_cant": "all values", "anchors": ["market/position.go:Position.String", "market/balances.go:Balance.String"]}
{"id": "C68", "title": "Positions copied by Update do not influence each other", "statement": "Expected: after Position.Update(&q) the two positions are independent values. The model with explicit backing arrays shows when this holds (the Trades slice is full) and refutes it otherwise: Modify on one overwrites the trade id the other recorded.", "quantifier": "every heap and every pair of positions and trades", "why_tests_cant": "aliasing depends on spare capacity", "anchors": ["market/position.go:Position.Update", "market/position.go:Position.add", "market/position.go:Position.substract"]}
{"id": "C69", "title": "Printed records are one line each", "statement": "Expected: String of a record is one line when its text fields contain no newline. True of tickers, balance snapshots, rows, candles, trades, fractals, annotations and orders without a pair; false of orders with a pair, order requests, positions and balances, which always print as two lines because the text of the pair or asset ends with a newline.", "quantifier": "every record value", "why_tests_cant": "all values", "anchors": ["market/order.go:Order.String", "market/pair.go:Pair.String", "market/position.go:Position.String"]}
{"id": "C70", "title": "Order book text shows the whole book, exactly", "statement": "OrderBook.String determines time and all rows of the book exactly (different books print differently); OrderBook.Print never panics and shows asks from last to first, then bids from first to last, one line per row, each number readable back exactly.", "quantifier": "every order book", "why_tests_cant": "all float values", "anchors": ["market/orderbook.go:OrderBook.String", "market/orderbook.go:OrderBook.Print"]}
{"id": "C71", "title": "Printed numbers are the field values correctly rounded", "statement": "Every String method shows its fields in the documented order; each float field appears with the declared number of decimals, within half a unit of the last digit of the stored value and, when the value lies exactly between two such texts, the one with the even last digit (NaN and infinities by name); this determines the text. Each integer appears exactly.", "quantifier": "every record value", "why_tests_cant": "all float values", "anchors": ["market/ticker.go:Ticker.String", "market/trade.go:Trade.String", "market/candle.go:Candle.String", "market/position.go:Position.String"]}
{"id": "C72", "title": "After any history the book shows the last update of each price", "statement": "Every row shown after any sequence of updates is exactly the last update of its side and price (price and volume of that update, which was not a deletion) or an initial row whose price was never updated. Conversely, when MaxDepth leaves room for all levels and the sides never meet, every such level is shown; for histories that only set levels the best MaxDepth of them are shown. With deletions and too little room, live levels that fell off the book never come back (refutation of the unconditional converse).", "quantifier": "every well sorted book and every finite sequence of updates with real prices", "why_tests_cant": "unbounded histories; interaction of truncation and deletion", "anchors": ["market/orderbook.go:ApplyUpdate", "market/orderbook.go:OrderBook.limit"]}
{"id": "C73", "title": "The order in which updates of different levels arrive is irrelevant", "statement": "Two histories with the same last update for each side and price give the same book (when sides stay apart and nothing live is truncated away); in particular any reordering of updates with one update per side and price; and building a book from an empty one by sending the levels of a snapshot as updates, in any order and interleaving, gives the prices and volumes of NewOrderBook on that snapshot. The cumulative volumes differ (ApplyUpdate leaves 0), shown by refutation.", "quantifier": "every book, every pair of histories, every snapshot and every order", "why_tests_cant": "all permutations", "anchors": ["market/orderbook.go:ApplyUpdate", "market/orderbook.go:NewOrderBook"]}
{"id": "C74", "title": "Moving averages and volatility in float64 stay close to exact arithmetic", "statement": "For candles whose closes are finite and of magnitude at most M (2^-900 <= M <= 2^900), at most 2^40 of them, every value computed by MovingAverage over n candles is finite and within (n+2)*2^-52*M of the value the same function computes in exact arithmetic; every value of ExponentialMovingAverage and SmoothedMovingAverage is within 13*len*2^-52*M of the exact recurrence (errors do not amplify along the series); EWV with 0<=beta<=1 within 12*len*2^-52*M. The error is relative to the size of the closes, not of the result (refutation: 2^53, 1, -2^53 average to 0 instead of 1/3).", "quantifier": "every candle slice, period and magnitude bound in range", "why_tests_cant": "all float64 inputs; error accumulation over unbounded series", "anchors": ["indicators/ma.go:MovingAverage", "indicators/ma.go:ExponentialMovingAverage", "indicators/ma.go:SmoothedMovingAverage", "indicators/ewv.go:EWV"]}
{"id": "C75", "title": "Volume totals: error bound in general, exact for whole numbers", "statement": "The cumulative volume at index i of a book built by NewOrderBook is within i*2^-52*(sum of magnitudes so far) of the exact sum of the volumes shown up to i; when the volumes are integers with magnitudes adding up to at most 2^53 it is exactly their sum. The volume of a candle merged by ModifyInterval is within 0.000006 + (n+1)*2^-52*(sum of magnitudes) of the exact sum of its n source volumes. Exactness for all volumes is refuted (2^53 and 1).", "quantifier": "every order book input with finite volumes, every candle series", "why_tests_cant": "all float64 inputs and lengths", "anchors": ["market/orderbook.go:NewOrderBook", "market/candle.go:ModifyInterval"]}
{"id": "C76", "title": "Sorting stays in bounds for any comparison and is the stable sort for any strict weak order", "statement": "sort.SliceStable as called by sort (orderbook.go) and findFractals: for every slice and every comparison function, even an inconsistent one (NaN prices), the algorithm never indexes outside the slice, terminates and returns a permutation; if the comparison is a strict weak order on the elements the result is sorted, equal elements keep their order, and it is the only such list. Consequently NewOrderBook with NaN prices does not panic and shows a prefix of a rearrangement of the rows on each side; that the other rows are then sorted is refuted (3, NaN, 1).", "quantifier": "every element type, slice, comparison function; every order book input including NaN, with at most 2^53 rows a side and a depth that is not negative", "why_tests_cant": "unbounded lengths and arbitrary comparison functions; in-place SymMerge with rotations only starts above 20 elements", "anchors": ["market/orderbook.go:OrderBook.sort", "market/orderbook.go:NewOrderBook", "indicators/williams_fractals.go:findFractals"]}
{"id": "C77", "title": "Asks and bids are treated alike", "statement": "Exchange the two sides of a book and negate all prices (asks become bids at the negated price and vice versa), and do the same to an update ('ask' <-> 'bid', other side strings unchanged): ApplyUpdate on the mirrored book with the mirrored update returns exactly the mirror of what it returns on the original, with the same error and the same panics; likewise for every history of updates and for NewOrderBook. Mirroring twice gives the original book.", "quantifier": "every book (sorted or not), update, history, row list and depth, with any float64 prices including NaN and infinities", "why_tests_cant": "a relation between two runs over unbounded histories; the code for the two sides is duplicated by hand, so one side can drift", "anchors": ["market/orderbook.go:OrderBook.ApplyUpdate", "market/orderbook.go:OrderBook.removeInvalid", "market/orderbook.go:OrderBook.limit", "market/orderbook.go:OrderBook.sort", "market/orderbook.go:NewOrderBook"]}
{"id": "C78", "title": "Only the order of prices matters to the order book", "statement": "If g keeps < and == among the prices of a book and of the updates, then replacing every price by g of it and running ApplyUpdate, a history of updates, or NewOrderBook gives the original result with every price replaced by g of it (same volumes, errors and panics). The same holds of GetDepth if g also keeps which asked price counts as positive. On finite prices and volumes a history of updates computes exactly what the same code computes with real numbers.", "quantifier": "every g, book, history and row list (g need only be order preserving on the prices that occur)", "why_tests_cant": "quantifies over all order-preserving relabellings and all histories", "anchors": ["market/orderbook.go:OrderBook.ApplyUpdate", "market/orderbook.go:OrderBook.removeInvalid", "market/orderbook.go:OrderBook.sort", "market/orderbook.go:NewOrderBook", "market/orderbook.go:OrderBook.GetDepth"]}
{"id": "C79", "title": "Fractals depend only on the order of highs and lows, and are symmetric upside down", "statement": "WilliamFractals of a series whose highs are relabelled by gh, lows by gl (each order preserving on the values that occur) and times by any h, with opens, closes and volumes changed arbitrarily, is the original result with prices and times relabelled. Turning the series upside down (high := -low, low := -high) turns the down fractals into the up fractals, in the same order, with negated prices, and conversely.", "quantifier": "every series including NaN prices, every relabelling", "why_tests_cant": "a relation between two runs for all relabellings and series lengths", "anchors": ["indicators/williams_fractals.go:WilliamFractals", "indicators/williams_fractals.go:findFractals", "indicators/williams_fractals.go:findFractal"]}
{"id": "C80", "title": "RSI in float64/float32 stays close to the exact relative strength index", "statement": "For every window of finite closes of magnitude at most M (2^-900 <= M <= 2^900, at most 2^40 candles) in which some close differs from the one before, calculateRSI returns a finite float32 within 7e-6 + 100*(3n+4)*2^-52 of 100*G/(G+L), where G and L are the exact totals of the rises and falls in the window and n its length; no condition on how small the moves are or on G/L (overflow of the ratio included). Hence every value RSI returns is that close to the index of its window of period+1 candles, and turning the prices upside down turns RSI into 100 - RSI up to twice the error.", "quantifier": "every slice with spare capacity, period from 1 to the length, every window within the magnitude bounds", "why_tests_cant": "a bound over all float inputs including ratio overflow, underflow and cancellation; tests compare a few values", "anchors": ["indicators/rsi.go:calculateRSI", "indicators/rsi.go:RSI"]}
{"id": "C81", "title": "Raising closes never lowers an average; widening candles never lowers the volatility", "statement": "For two series of the same length whose closes satisfy c_i <= c'_i (float64 comparison), and a period from 1 to the length, MovingAverage, ExponentialMovingAverage and SmoothedMovingAverage of the second are, position by position, at least those of the first, in float64 with all its rounding, whenever both values are finite. Likewise EWV for 0 <= beta <= 1 when every high is at least as high and every low at least as low. For SmoothedMovingAverage this depends on the previous value being a rounded quotient by the period: its step ((prev*n - prev) + close)/n on arbitrary machine numbers can fall when prev rises.", "quantifier": "for all series, hidden capacity, periods up to 2^63 (2^53 for the smoothed average), with no bound on the closes", "why_tests_cant": "The claim is about every rounding: a violation would be one unit in the last place on particular mantissas (the step of the smoothed average does violate it on about one input in a thousand), which example tests with round numbers do not meet.", "anchors": ["indicators/ma.go:8-131", "indicators/ewv.go:7-17"]}
{"id": "C82", "title": "Positions, profits, fees and completed requests stay close to exact arithmetic", "statement": "For prices and quantities between 2^-300 and 2^300: a position opened by a trade and increased by k further trades on the same side (k <= 2^20) is open, has quantity within k*eps*S of the exact total S and open price within k(k+3)*eps*(W/S) of the exact volume-weighted price W/S (W the exact money traded; eps = 2^-52). UnrealizedProfit at a price c, and the profit recorded by the trade that closes the position, are within 2(k+2)^2*eps*(c*S+W) of the exact gain. NewTrade's fee is within 2*eps*(|cost|+price*quantity) of the exact difference. CalculateFields gives a total within eps*total of quantity*price, and a second call on the result is refused.", "quantifier": "for all trade histories on one side, all closing trades, all orders and prices in the stated range", "why_tests_cant": "Rounding errors accumulate through a recursion (new average from old average); tests with small round numbers see no error and cannot bound the error for a million trades.", "anchors": ["market/position.go:52-74", "market/position.go:116-186", "market/trade.go:26-50", "market/order_request.go:66-95"]}
{"id": "C83", "title": "Every struct survives being written to JSON and read back", "statement": "For each struct type of the library (assets, pairs, candles, order book rows, updates and books, tickers, trades, orders, positions, order requests, balances and snapshots, annotations, strategy actions, ticks, fractals): json.Marshal of a value whose strings are valid UTF-8, whose numbers are finite and whose times lie in the years 0 to 9999 in a zone of whole minutes succeeds, and json.Unmarshal of the text into a fresh variable returns exactly that value: every float64 bit for bit including -0, every time to the nanosecond with its zone, nil and empty slices and nil pointers kept apart. The text is an object whose member names are exactly the json tags of the struct, in order; for a candle the whole text is given.", "quantifier": "for all values of all 24 struct types meeting the stated conditions, all nil/empty choices and all zones", "why_tests_cant": "A missing, doubled or misspelt tag loses a field silently on a round trip, and shortest-decimal float printing has to be exact for all 2^64 floats; tests store a few values.", "anchors": ["market/asset.go:10-14", "market/pair.go:8-11", "market/candle.go:13-20", "market/orderbook_types.go:6-20", "market/orderbook.go:12-17", "market/ticker.go:6-13", "market/trade.go:12-23", "market/order.go:53-71", "market/position.go:23-49", "market/balances.go:6-31", "strategy/annotation.go:23-31", "strategy/order_actions.go:8-41", "strategy/position_actions.go:8-26"]}
{"id": "C84", "title": "What JSON refuses and what it silently changes", "statement": "json.Marshal of a candle or ticker fails exactly when one of its five numbers is a NaN or an infinity; of a book, exactly when a number of some row is; of a trade, order or position, exactly when one of its numbers is or a time is outside the years 0 to 9999 in its zone. In general a value is refused exactly when it contains such a number or time, and an asset survives the round trip exactly when its three strings are valid UTF-8. The expectation that different assets have different texts is false: bytes that are no UTF-8 are replaced without an error.", "quantifier": "for all values of the types, including NaN, infinities, all instants and all byte strings", "why_tests_cant": "Tests use printable strings and finite numbers; the exact boundary between refused, altered and kept values quantifies over all floats and all byte strings.", "anchors": ["market/asset.go:10-14", "market/pair.go:8-11", "market/candle.go:13-20", "market/orderbook_types.go:6-20", "market/orderbook.go:12-17", "market/ticker.go:6-13", "market/trade.go:12-23", "market/order.go:53-71", "market/position.go:23-49"]}
{"id": "C85", "title": "The stored record is found under the key its model declares", "statement": "For an order, trade, position or annotation that JSON can hold, the JSON text is an object in which the primary key named by GetSchema occurs exactly once, as a string, and its value is what GetID returns. The four table names of GetSchema are pairwise different. NewAnnotation returns the given identifier, time, price, label and tooltip, with creation time 0 and no execution identifier.", "quantifier": "for all orders, trades, positions and annotations JSON can hold, any zones, any annotation arguments", "why_tests_cant": "The link between a string constant in GetSchema, a struct tag and GetID is only visible when a database looks a record up; no test does.", "anchors": ["market/order.go:73-81", "market/trade.go:51-59", "market/position.go:75-83", "strategy/annotation.go:23-77"]}
{"id": "C86", "title": "ModifyInterval has no preferred date, direction or unit", "statement": "Candles all moved in time by the same amount, such that each keeps its minute of the hour, give the same outcome (error, panic or candles) with the result moved by that amount; in a zone of constant offset every move by whole hours qualifies. With the chart turned upside down (prices negated, high and low exchanged) the outcome is the same with the resulting chart turned upside down. With the four prices replaced through any map that keeps the order of the highs and of the lows within the range of the code's sentinels, the outcome is the same with the map applied to the resulting prices. Moving by whole minutes instead of hours does change the outcome (counterexample).", "quantifier": "for all candle sequences, interval lengths, zones, moves and order-keeping price maps", "why_tests_cant": "Relates the results of two runs on related inputs; the tests fix one data set in one zone.", "anchors": ["market/candle.go:ModifyInterval"]}
{"id": "C87", "title": "A series can be resampled in batches cut where an interval starts", "statement": "When a series of candles whole minutes apart is cut into two batches, the first containing a candle that starts an interval, the second having at least two candles and beginning with one that starts an interval a whole number of intervals after it, and ModifyInterval succeeds on each batch, then it succeeds on the whole and returns the two results one after the other. For interval lengths dividing 60, zones of whole hours and candles at whole minutes, every second batch beginning where an interval starts qualifies. For a second batch beginning elsewhere the results differ (counterexample).", "quantifier": "for all series of at least four candles with near times, all cuts, zones and interval lengths", "why_tests_cant": "Quantifies over all cut points; no test resamples in parts.", "anchors": ["market/candle.go:ModifyInterval"]}
{"id": "C88", "title": "Candle files can be appended, edited and saved again", "statement": "The file of a save followed by the bytes of any second file loads as the saved candles followed by what the second file loads as; an error or panic of the second stays one. Whatever candles a load returns, whether or not it failed, saving and loading them again returns the same candles without error. A saved file in which every newline became carriage return and newline, or which lost its last newline, still loads as the same candles. Two different lists of candles never make the same file.", "quantifier": "for all lists of candles (times within 32 bits, for the last sentence 64 bits), all second files, all files loaded", "why_tests_cant": "Quantifies over pairs of files; the tests load one file and never save one.", "anchors": ["market/candle_load.go:SaveCandlesToFile", "market/candle_load.go:LoadCandlesFromFile"]}
{"id": "C89", "title": "A unit of price that is a power of two changes nothing but the unit", "statement": "Multiply every close of a series by 2^k exactly. Then every value of MovingAverage, ExponentialMovingAverage and SmoothedMovingAverage is multiplied by exactly 2^k, without any rounding difference, unless one of the two values overflowed (closes at least 2^-900 in both series). Multiplying every high and low by 2^k multiplies EWV by exactly 2^k in the same way (ranges at least 2^-900, beta zero or at least 2^-60). RSI is the very same result, panics included (closes of magnitude at most 2^1000, at most 2^20 candles, no lower bound). For a factor ten the average does move, and for closes near 2^-1074 a factor two already does (counterexamples).", "quantifier": "for all series, exponents k, periods and values of beta, in float64 arithmetic", "why_tests_cant": "Compares two runs bit for bit on related inputs; the tests never scale a series.", "anchors": ["indicators/ma.go:MovingAverage", "indicators/ma.go:ExponentialMovingAverage", "indicators/ma.go:SmoothedMovingAverage", "indicators/ewv.go:EWV", "indicators/rsi.go:RSI"]}
{"id": "C90", "title": "The counterparty's position mirrors ours bit for bit", "statement": "Exchange buy and sell in every trade. NewPosition then opens the opposite direction with all other fields the same; each Modify returns the same error, and after every history the two positions agree bit for bit in every field except the direction and the profit, which is the exact negative (up to the sign of a zero). UnrealizedProfit of the two is opposite at every current price, and so is the fee NewTrade computes. No condition on the numbers: this includes NaN, infinities and overflow. Negation also of the sign of a zero profit is false (counterexample).", "quantifier": "for all positions of opposite direction, all trades, histories and prices", "why_tests_cant": "Two runs over arbitrary histories; the tests run each direction on one example.", "anchors": ["market/position.go:NewPosition", "market/position.go:Modify", "market/position.go:add", "market/position.go:substract", "market/position.go:UnrealizedProfit", "market/trade.go:NewTrade"]}
{"id": "C91", "title": "Decimal numbers in candle files are read as the nearest float64", "statement": "Every decimal notation (optional sign, digits with or without a point, optional exponent with e or E; under 9000 bytes) is read by ParseFloat as the float64 nearest to the exact number written, ties to even, with the sign of the text; no finite float64 is closer and the error is at most 2^-53 of the number plus 2^-1075. If rounding leaves the finite range the text is refused. Different notations of one number give identical floats, and a smaller number is never read as a larger one. Whole numbers are read exactly or refused. So a candle file whose lines hold such numbers loads without error into the candles with the given times and the nearest prices. Without the bound on the length this is false: 1 written with 100000 decimals and exponent 100000 is read as 0.", "quantifier": "for all decimal texts, real numbers, and candle files of any number of lines", "why_tests_cant": "Tests load files the package itself saved; other notations, ties and range limits are infinitely many.", "anchors": ["market/candle_load.go:loadCandlesFromFile"]}
{"id": "C92", "title": "JSON texts of any origin are read as the value they denote", "statement": "Every text of the JSON grammar (RFC 8259: any blanks, number notations, escapes including surrogate pairs, UTF-8) is parsed to the tree it is derived from, and json.Unmarshal into any of the repository's struct types does not depend on its blanks. If the tree has at most 10000 levels of nesting and denotes a value - strings with escapes resolved, whole numbers in range, decimals as the nearest float64, RFC 3339 times as their instants, arrays element by element, maps by key, each struct field from the only member of that name in whatever letter case and position, absent fields zero, unknown members ignored, null as the zero value - exactly that value is read, whatever the order of the members. Completeness is not checked: {} is read as the zero candle, and of two members of one name the last counts.", "quantifier": "for all JSON texts, types built from the repository's kinds, and values", "why_tests_cant": "Tests decode what the package encoded; other producers' layouts, escapes, notations, member orders and cases are infinitely many.", "anchors": ["market/asset.go:Asset", "market/candle.go:Candle", "market/orderbook.go:OrderBook", "market/ticker.go:Ticker"]}
{"id": "C93", "title": "json.Unmarshal accepts exactly JSON texts and refuses what contradicts the type", "statement": "A text is parsed to a tree if and only if the JSON grammar derives that tree from it (string literals with any bytes from 32 up and any escapes), the tree is unique, and a text outside the grammar - trailing comma, leading zero, NaN, unquoted names, two values - is refused for every type. A text is refused, whatever else it says, if its tree contains a token of the wrong kind for a field, a number that is no whole number of 64 bits for an integer field, a decimal beyond the largest float64, or a text that is no RFC 3339 time for a time field, under any spelling of the field's name that the library takes for it (case, long s, Kelvin sign). A text nested deeper than 10000 arrays and objects is refused for every type, wherever the nesting is. Accepted times are exactly the RFC 3339 ones and those with an hour of one digit, a decimal comma or a zone of 24 hours. Nothing that is refused this way denotes a value in the sense of C92.", "quantifier": "for all byte strings, trees and types built from the repository's kinds", "why_tests_cant": "A finite set of malformed inputs cannot show that every malformed text is refused, nor that no other text is.", "anchors": ["market/asset.go:Asset", "market/candle.go:Candle", "market/orderbook.go:OrderBook", "market/order.go:Order"]}
{"id": "C94", "title": "Updates delivered again do no harm", "statement": "If a stream of updates is delivered by a source that any number of times goes back and sends some updates and what follows again (reconnection, or updates buffered while the snapshot was fetched), the book ends exactly as without the repetition; in particular applying to a book the last part of the history it already reflects leaves it unchanged. This needs room for the different levels (not for the length of the history), sides that never meet, and complete replay: without room a level that was cut off comes back, across a crossing a replay can delete a further level that was never crossed, and a single stale update undoes a newer one (refutations). With room in this weaker sense the book is still exactly the last updates (C72) and two histories with the same last updates give the same book (C73).", "quantifier": "for all well sorted books, all finite streams of updates and all ways of rewinding them", "why_tests_cant": "The number of rewinds, their positions and lengths are unbounded.", "anchors": ["market/orderbook.go:ApplyUpdate", "market/orderbook.go:OrderBook.limit"]}
{"id": "C95", "title": "A book shared by goroutines: what a lock gives and what its absence costs", "statement": "OrderBook has no lock. If every goroutine holds one lock during each of its ApplyUpdate and GetDepth calls then, whatever the scheduler does between any two memory accesses, the replies and the book are those of some one-after-the-other order of the calls that keeps each goroutine's own order; a panic can only be one of such an order; there is no deadlock; updates alone never panic; and if no two goroutines update the same level (with room and sides apart as in C94) the final book does not depend on the scheduler at all. Goroutines that only call GetDepth need no lock: each gets its sequential reply and memory stays as it was. Without the lock, two updates or an update and a read can lose an acknowledged update, leave the side unsorted, show one price twice, bring back a deleted level, and panic with an index out of range in ApplyUpdate as well as in GetDepth (refutations, with schedules); with the lock but a common level the scheduler decides the volume (refutation).", "quantifier": "for all books in memory whose sides share no array, all numbers of goroutines, all finite call lists, all growth policies of append and all schedules", "why_tests_cant": "Tests run a few of the interleavings, whose number grows exponentially with the accesses; the bad ones need a switch between two particular accesses, and the good behaviour is about all of them.", "anchors": ["market/orderbook.go:ApplyUpdate", "market/orderbook.go:GetDepth", "market/orderbook.go:OrderBook.limit", "market/orderbook.go:OrderBook.removeInvalid", "market/orderbook.go:removeElement"]}
{"id": "C96", "title": "Partial closes in float64: the books of a position stay close to the exact ones", "statement": "A position opened by a buy or a sell and taken through any history of trades, increases, partial closes and trades it ignores, in float64: with positive prices and quantities between 2^-200 and 2^200 and at most 2^20 trades, as long as it is open (1) its quantity is within k*2^-52 times the total quantity traded of the exact net quantity of the trades it recorded (k of them after the first); (2) open price times quantity is within 4k*2^-52 times the total traded value of the exact money still in it (paid minus received, or the reverse for a short); (3) UnrealizedProfit at any price c is finite and within 4(k+1)*2^-52*(c * total quantity + total value) of the exact gain of closing at c, and so is the profit recorded on closing; (4) if the closing trade is for exactly the net quantity, that profit is the exact net cash of all trades up to the same bound. When the quantities are whole numbers adding up to at most 2^53 the quantity is exact and a reducing trade of exactly that quantity closes the position. Without that bound, selling exactly what was bought can leave the position open and selling less can close it (refutations); for 0.1 + 0.2 - 0.3 the left-over position has an open price below -10^15 (example).", "quantifier": "for all opening trades with action buy or sell, all lists of at most 2^20 trades with moderate prices and quantities (any action, any pair), and all closing prices", "why_tests_cant": "Error accumulation over arbitrary interleavings of increases and partial closes, including near cancellations where the open price itself becomes meaningless, is not visible in a handful of round-number tests.", "anchors": ["market/position.go:NewPosition", "market/position.go:Modify", "market/position.go:add", "market/position.go:substract", "market/position.go:UnrealizedProfit"]}
{"id": "C97", "title": "Fused multiply-add: what a platform that rounds x*y + z once can and cannot change", "statement": "The Go specification lets a compiler fuse a product with the addition or subtraction that takes it; gc does so on arm64, ppc64, s390x and riscv64 but not on amd64. The library has such expressions in the EMA, the SMMA, the volatility, CalculateOverlap, the fee of NewTrade and the partial close of a position. For every choice of where to fuse: (1) the same errors, panics, lengths and closed positions as without fusing - of a position only open price and profit can differ; (2) the error bounds of C74, C82 (fee) and C96 hold unchanged; (3) overlaps of whole-number books are still exact (C15); (4) raising closes (or widening ranges) still does not lower any value of the EMA, the SMMA or the volatility (C81); (5) with no place fused the functions are the ones of the other claims. Results are not the same on all platforms: cost = price*quantity computed by the caller gives a fee of exactly 0 without fusing and not with it, and an EMA and an open price can differ (refutations).", "quantifier": "for all inputs and all choices, per evaluation, of which product is fused, under the hypotheses of C74, C81, C82, C15 and C96 respectively", "why_tests_cant": "Tests run on the platform of the developer; the fused code exists only in binaries for other architectures.", "anchors": ["indicators/ma.go:ExponentialMovingAverage", "indicators/ma.go:SmoothedMovingAverage", "indicators/ewv.go:ExponentiallyWeightedVolatility", "market/orderbook.go:CalculateOverlap", "market/trade.go:NewTrade", "market/position.go:substract"]}
{"id": "C98", "title": "CalculateOverlap in float64 stays close to the exact value of the overlap", "statement": "For books of finite, non-negative prices (none above P) and volumes (each side totalling at most V), with P and V between 2^-400 and 2^400 and n <= 2^40 rows in all, CalculateOverlap in float64 ends as in exact arithmetic - same panic or same error - and its value is finite and within 17*n*2^-52*P*V of the exact one; for sorted books with the first asking below what the second bids that exact value is the formula of C15. This holds although rounding of the volume totals can send the selling loop past the row at which exact arithmetic stops, or stop it early; and on platforms that fuse products (C97). It is not exact in general: 2^53 units bought at 1 are sold as 2^53 + 1 units in float64, for a gain of 4 instead of 0 (refutation).", "quantifier": "for all pairs of books with finite non-negative prices and volumes in the stated range, sorted or not, and all choices of fused products", "why_tests_cant": "The selling loop branches on a rounded sum, so an error analysis cannot follow one path; inputs whose float64 run takes another branch than the exact one are rare and not found by examples.", "anchors": ["market/orderbook.go:CalculateOverlap", "market/orderbook.go:overlapCalculation"]}
{"id": "C99", "title": "Averages are fixed weighted means that forget old prices at a known rate", "statement": "In exact arithmetic entry i of ExponentialMovingAverage over n candles is k^i times the mean of the first n closes plus (1-k)*k^m times the close taken in m candles ago, k = 1 - 2/(n+1); SmoothedMovingAverage likewise with k = 1 - 1/n; the weights add up to 1, and the averages of the series a*x + b*y + d are a*(average of x) + b*(average of y) + d (the volatility is linear in the candles' ranges). If two series are never more than D apart and equal from some candle on, entries that have taken in j of the common candles differ by at most D*k^j (EWV: beta^j), and no entry ever differs by more than D. In float64 the same holds for closes of magnitude up to M with D = 2M (EWV 4M) up to rounding of 26*len*2^-52*M (EWV 24); entries of MovingAverage beyond the last difference are the same machine numbers.", "quantifier": "for all series, periods from 1 to the length, positions and magnitudes (2^-900 to 2^900, at most 2^40 candles in float64)", "why_tests_cant": "How long a wrong or missing tick distorts an average is a statement about pairs of arbitrarily long series.", "anchors": ["indicators/ma.go:ExponentialMovingAverage", "indicators/ma.go:SmoothedMovingAverage", "indicators/ma.go:MovingAverage", "indicators/ewv.go:ExponentialWeightedVolatility"]}
{"id": "C100", "title": "A book or a position can be stored as JSON and restored between any two steps without effect", "statement": "Suppose a program applies a list of updates to an OrderBook and, before any of them and at the end, any number of times, writes the book with json.Marshal and goes on with what json.Unmarshal reads back, into a fresh variable or one that already holds another book. Then it ends with exactly the book, or the panic, of the program that never does; this holds whatever the rows and updates contain (a book holding NaN or an infinity is refused by Marshal, never restored differently). If the numbers of the starting book and of the updates are finite, the book can be stored after every update. Likewise a Position modified by a list of trades and stored and restored at any points, its two times shown in any locations of whole-minute offset, ends as the position that stayed in memory.", "quantifier": "for all books with 64-bit Time and MaxDepth and all lists of updates; all positions and trades whose texts are UTF-8 and whose instants are not more than 2^62 seconds before 1970; all placements of the restarts; nil or empty slices alike", "why_tests_cant": "The placements of restarts in a history are exponentially many, and any of them could lose a digit.", "anchors": ["market/orderbook.go:ApplyUpdate", "market/orderbook.go:OrderBook", "market/position.go:Modify", "market/position.go:Position"]}
{"id": "C101", "title": "Reading JSON into a variable that is already in use", "statement": "json.Unmarshal of a JSON text into a variable holding any value of the type leaves there what the text means over that value: null makes pointers, slices and maps nil and changes nothing else; a field the text does not mention stays; a mentioned field is read over the old one; elements of an array are read over the old elements in the same places (also those beyond the old length, up to the capacity); the entries of a map whose keys the text does not have stay. For the 21 struct types of the repository without maps the text that Marshal wrote for a storable value a leaves exactly a, whatever the variable held. For Tick, which has maps, it does not: a stored Tick without open orders read over a Tick with one leaves that order open. Members that name a field or a key twice (any JSON text): an object is read member by member, the rest of the members over the result of the first ones; of two members for one map key the later decides, and the other keys keep their entries. The zero time, which an unmentioned time field of a fresh variable has, is 0001-01-01T00:00:00Z.", "quantifier": "for all types built from the repository's kinds, all old values (slices taken up to their capacity), JSON texts nested at most 10000 deep whose numerals are in range, whose member names are ASCII and name no field twice (the clause on members named twice: every JSON text nested at most 10000 deep in which no array is read over a longer one of the same slice; for slices in general see C123)", "why_tests_cant": "Which parts of an old value shine through depends on every combination of old value and text.", "anchors": ["market/orderbook.go:OrderBook", "market/position.go:Position", "market/order.go:Order", "market/candle.go:Candle", "strategy/strategy.go:Tick", "strategy/actions.go:Actions"]}
{"id": "C102", "title": "What a book of limited depth does not show", "statement": "A level that the update stream says is live (set by its last update, or initial and never updated) is missing from a side exactly when at some moment the side was full with better prices and the level's price has not been sent since. Hence a side that at every moment had room or reached to price q is complete up to q; after n deletions on a side its best MaxDepth - n rows are exactly the best live levels, in order (and one row more can be wrong); and the same stream kept with a larger MaxDepth shows at least the same rows. This is for streams whose sides never meet: where they meet a deeper book can lose a row that a shorter one keeps (refuted).", "quantifier": "for all well sorted books within their depth and all finite streams of updates with real prices whose sides stay apart", "why_tests_cant": "A level pushed off the book stays invisible until it is sent again; whether it is missed depends on the whole history of depths, not on any single step.", "anchors": ["market/orderbook.go:ApplyUpdate", "market/orderbook.go:limit"]}
{"id": "C103", "title": "RSI follows the newest close of its window and opposes the oldest", "statement": "If one close is raised and everything else stays the same, then in the result of RSI the value of the window that ends with that candle is not lower, the value of the window that starts with it is not higher (each unless one of the two values is NaN), and the values of the windows without it are the same. This holds of the computed float32 values, with every rounding. For a close between the first and the last of a window neither direction holds (refuted).", "quantifier": "for all candle series with finite closes, all periods from 1 to the length, all positions of the raised close, all amounts including those that overflow the sums", "why_tests_cant": "Monotonicity of a rounded computation relates every pair of inputs; a single rounding step that is not monotone, or a sign mistake, shows only on particular pairs.", "anchors": ["indicators/rsi.go:calculateRSI", "indicators/rsi.go:RSI"]}
{"id": "C104", "title": "Accumulated volumes influence nothing, and rebuilding a book repairs them", "statement": "Two books with the same prices and volumes row by row and the same MaxDepth, whatever their AccumVolume fields and times: every update and every history returns the same error, panics alike, and leaves books with the same levels; GetDepth and CalculateOverlap give identical answers; NewOrderBook on their rows gives the identical book. For a book in price order and within its MaxDepth, as every history leaves it, NewOrderBook on its own rows returns a book with the same levels whose AccumVolume fields are the running totals again (C12 shows that updates leave them wrong), and doing it twice changes only the time.", "quantifier": "for all pairs of books (any order, size, NaN) for the first part; for all well-ordered books and all histories for the second", "why_tests_cant": "That a field is never read is a statement about all executions; a test would have to vary stale totals in every state and compare every later answer.", "anchors": ["market/orderbook.go:ApplyUpdate", "market/orderbook.go:GetDepth", "market/orderbook.go:CalculateOverlap", "market/orderbook.go:NewOrderBook", "market/orderbook.go:sort"]}
{"id": "C105", "title": "GetDepth rounds prices to the levels of the book", "statement": "On a sorted uncrossed book with both sides non-empty, every answer of GetDepth is the price of a level; the (positive) price of a level is its own answer, so asking again with an answer changes nothing; a higher price never gets a lower answer, also when the two prices fall on different sides; answers lie below the price among the asks and above it among the bids; a price strictly between the best bid and the best ask gets no answer. On a crossed book idempotence and monotonicity fail (refuted).", "quantifier": "for all books in price order without NaN (duplicates allowed), all pairs of float64 prices", "why_tests_cant": "Monotonicity and idempotence relate all pairs of prices; tests probe a few points of one book.", "anchors": ["market/orderbook.go:GetDepth"]}
{"id": "C106", "title": "Windowed indicators need only the candles of their windows; recursive ones need them all", "statement": "Dropping the oldest candles of a series drops the first values of MovingAverage and of RSI and leaves all others bit for bit; WilliamFractals reports the same for every candle that still has its two predecessors. Hence MovingAverage and RSI can be computed in batches that share period-1 candles, and the results put together are those of the whole series. ExponentialMovingAverage and SmoothedMovingAverage do not have this property: the newest value depends on the oldest candle (refuted). ExponentialWeightedVolatility continues from its last value.", "quantifier": "for all series of candles (NaN and infinities included), all cuts, all periods that fit", "why_tests_cant": "Independence of the older candles is a statement about all of them and all cuts; a test compares a few.", "anchors": ["indicators/ma.go:MovingAverage", "indicators/rsi.go:RSI", "indicators/williams_fractals.go:WilliamFractals", "indicators/ma.go:ExponentialMovingAverage", "indicators/ma.go:SmoothedMovingAverage", "indicators/ewv.go:ExponentialWeightedVolatility"]}
{"id": "C107", "title": "The order of trades and their partition do not matter to a position (in exact arithmetic)", "statement": "In exact arithmetic, after any history of trades that take effect and keep the position open, its size is the first size plus the net quantity and its open price times its size is the first value plus the net value of the trades; hence every order of the same trades that also keeps it open gives the same position up to the list of trade ids, increases may come in any order and may all be moved to the front, a trade executed in two parts at one price gives the same position as the whole, and closing in two parts at one price gives the same profit. The list of trades is never read: positions that differ only in it have the same values and errors after every further trade (also in float64). In float64 the order of two increases can change the open price (refuted).", "quantifier": "for all positions of positive size and all histories of trades with positive quantities", "why_tests_cant": "Independence of the order ranges over all permutations and partitions of all histories.", "anchors": ["market/position.go:Modify", "market/position.go:add", "market/position.go:substract"]}
{"id": "C108", "title": "Which fields of the candles each function reads", "statement": "The result of ModifyInterval has each field from the times and the same field of the input: for any choice of fields, inputs that agree in the times and those fields panic alike, fail with the same error or give results that agree in the times and those fields, bit for bit (NaNs included); in particular other volumes give the same prices. GetMinInterval reads only times; MovingAverage, ExponentialMovingAverage and SmoothedMovingAverage read only closes; RSI reads only closes, including those of the spare capacity of its argument (that it reads no further than the slice is refuted); EWV reads only highs and lows; WilliamFractals only times, highs and lows.", "quantifier": "for all series of candles, all time zones, all intervals and periods, all float64 values", "why_tests_cant": "That a field is never read is a statement about all pairs of inputs that differ in it.", "anchors": ["market/candle.go:ModifyInterval", "market/candle.go:GetMinInterval", "indicators/ma.go", "indicators/rsi.go", "indicators/ewv.go", "indicators/williams_fractals.go"]}
{"id": "C109", "title": "Exactly when each exported function panics", "statement": "NewOrderBook panics exactly for a negative depth; ApplyUpdate exactly when MaxDepth is negative, the side is ask or bid, and the volume is non-zero or the price is listed on its side; a book made with depth zero or more survives every history, after which GetDepth panics exactly for prices above zero (or NaN) when a side is empty; CalculateOverlap exactly when a side it has to look at is empty; ModifyInterval exactly on no candles, when the first two candles are less than a minute apart and the interval is not 1, or when the interval is 0 and a candle before the last is on the full hour; LoadCandlesFromFile exactly when the first line that is not a candle is short enough to be scanned and too short or with too few words; the moving averages and WilliamFractals never; RSI exactly with 14 candles or more and a period outside -1..len+1, or at most len without spare capacity; Position.String exactly for ids shorter than 8 bytes, Balance.String without an asset, Print never; Update exactly for a typed nil; the Tick methods without a candle (and a known location).", "quantifier": "for all arguments and all states reachable or not (sides shorter than 2^53 rows, time differences that fit int64)", "why_tests_cant": "Absence of a panic on all other inputs is a universal statement; tests only visit some.", "anchors": ["market/orderbook.go", "market/candle.go", "market/candle_load.go", "indicators/ma.go", "indicators/rsi.go", "indicators/williams_fractals.go", "market/position.go", "market/balances.go", "strategy/strategy.go"]}
{"id": "C110", "title": "Calls through nil pointers", "statement": "On a nil book ApplyUpdate panics exactly for the sides ask and bid and GetDepth exactly for prices above zero (or NaN), the other arguments are refused as usual. NewPosition and Modify panic exactly when a pointer is nil. Update on a nil receiver panics exactly for a value of its own type and refuses others; GetSchema works on nil, GetID panics. Adding actions to a nil Actions panics even when nothing is added. GetLocationTime on a nil tick reports an unknown location and panics otherwise. SaveCandlesToFile with a nil list panics exactly if the file could be created, after emptying it: the candles stored there before are lost (that they are kept is refuted). Through other pointers every call is the one of the value.", "quantifier": "for all arguments, files and paths", "why_tests_cant": "What is read before the first dereference decides the outcome for all combinations of the other arguments.", "anchors": ["market/candle_load.go:SaveCandlesToFile", "market/orderbook.go:ApplyUpdate", "market/orderbook.go:GetDepth", "market/position.go:Modify", "market/position.go:NewPosition", "market/order.go:Update", "strategy/actions.go", "strategy/strategy.go"]}
{"id": "C111", "title": "Which position fields Modify changes, and when", "statement": "For a given position every trade is in exactly one of four cases: idle (other pair, unknown action, or more than 0.0001 too large), growing, shrinking, closing. An idle trade changes nothing. ID, Type, Pair, TakeProfit, StopLoss, OpenTime, ExecutionID and Data are never changed by any history. Open, ClosePrice, CloseTime and Profit are changed by closing trades only: after any history they are the initial ones or those of the last closing trade; a position made by NewPosition that is still open has ClosePrice 0, Profit 0 and the zero time. Growing and shrinking change Quantity and OpenPrice only, closing leaves both alone; each non-idle trade appends its ID and nothing else to Trades. OrderType, Fee, Cost and ExecutionID of a trade influence nothing.", "quantifier": "every position, every trade, every history, all float64 values including NaN", "why_tests_cant": "A frame condition speaks about all fields that do not change in all histories; tests compare the few fields they expect to change.", "anchors": ["market/position.go:52-75", "market/position.go:125-186"]}
{"id": "C112", "title": "Numbers are written as their shortest decimal", "statement": "The text of a finite non-zero float64 in a candle file, a printed value or a JSON document is its sign and one particular decimal in one particular notation: the decimal is read back as the number, no decimal with fewer digits is, among those with as many digits it is the nearest to the number, and of two equally near ones the even one; it has at most 17 digits. Notation for files and printing: no needless zeros, plain digits from 0.0001 up to a million, otherwise one digit before the point and an exponent with a sign and at least two digits. In JSON: plain digits from 0.000001 up to 10^21, otherwise an exponent without needless zeros. Nothing else is written for the number: the text is determined by these conditions. Zeros are \"0\" and \"-0\", infinities and NaN \"+Inf\", \"-Inf\", \"NaN\" when printed and refused in JSON.", "quantifier": "every float64, every candidate text, every real number as competing decimal", "why_tests_cant": "There are 2^64 numbers, and that no shorter decimal at all is read as the number compares each with all decimals; tests look at the texts of a few numbers.", "anchors": ["market/candle_load.go:SaveCandlesToFile", "market/orderbook.go:76", "market/candle.go:Candle"]}
{"id": "C113", "title": "RSI is the net move of its window over the distance travelled", "statement": "Up to the error of C80 every value of RSI is 50 + 50*(last close - first close)/(sum of the absolute moves) of its window of period+1 candles. Hence, each up to the stated multiple of that error: a window that ends above its first close has a value of at least 50, one that ends below at most 50; another unit or another zero of the price (a*x + b with a > 0) changes nothing; the same window read backwards has the value 100 minus it; a candle whose close lies between its neighbours' closes can be left out, only turning points matter; and the value of two windows joined at a candle is the mean of their values weighted with the distances travelled.", "quantifier": "every window of finite closes of magnitude at most M (2^-900 <= M <= 2^900, at most 2^40 candles) in which some close differs from the one before; every call of RSI with period from 1 to the length", "why_tests_cant": "Each clause relates the results on two or three different series for all series; a test fixes one series and one expected number.", "anchors": ["indicators/rsi.go:8-21", "indicators/rsi.go:23-48"]}
{"id": "C114", "title": "A NaN in an update loses the best price of the other side and never leaves its own", "statement": "An ask update with price NaN and a volume other than zero is accepted without error: a row of price NaN goes to the end of the asks (if the depth leaves room) and the best bid is removed, unless it is the only one; mirrored for bids. Repeated, n such updates remove the n best rows of the other side down to its worst row and fill up their own. With volume zero the update does nothing, so a NaN row cannot be removed by an update of its price. While there is room on a side, updates of that side with real prices treat its real rows exactly as if the NaN rows were not there, and leave the NaN rows. With a NaN row in the asks the book can become crossed (refutation by a concrete run). A NaN volume in NewOrderBook makes every running total from its level on NaN.", "quantifier": "every book with non-negative depth and at most 2^53 rows on the other side; every update of price NaN; every number of repetitions; every input of NewOrderBook", "why_tests_cant": "What a NaN does depends on which branch of each comparison is taken when both < and > are false; a test with NaN compares one outcome, and a test without it never gets there. That updates can never repair the book is a statement about all of them.", "anchors": ["market/orderbook.go:19-73", "market/orderbook.go:91-134", "market/orderbook.go:136-249"]}
{"id": "C115", "title": "Exactly which texts a candle file may hold, and what each means", "statement": "strconv.ParseFloat, which reads the prices of a candle file, finds a text well formed exactly if it is nan, inf or infinity in any case (the last two with an optional sign), a decimal number or a hexadecimal number with a power of two (0x1.8p1); underscores may stand between two digits or behind 0x, nowhere else. Its value is the special one or the float64 nearest to the exact number, ties to even, with the sign of the text; numbers that round beyond the finite range are refused; a number that is a float64 is read exactly. strconv.ParseInt(.., 10, 32) accepts exactly the signed rows of decimal digits of 32-bit numbers. Hence every line of a candle file is read as a candle, refused with an error, or makes the load panic exactly as its words say, and the outcome of every file follows from its first line that is not read; a carriage return at the end of a line is ignored.", "quantifier": "all byte strings for acceptance; for values texts and lines of fewer than 2200 bytes (decimal numbers: 9000); all files of such lines", "why_tests_cant": "Acceptance is a statement about all byte strings in both directions: every well-formed text is taken and nothing else is.", "anchors": ["market/candle_load.go:31-94"]}
{"id": "C116", "title": "What a failing disk leaves of a candle file", "statement": "Each write of SaveCandlesToFile may fail after any number of bytes and reading may stop anywhere. Whatever happens, a later LoadCandlesFromFile that reports no error returns a beginning of the list of candles that were written entirely, in order and without a foreign one between them, and possibly one more at the end that has time, open, high, low and close of a saved candle and a volume read from the first digits of its volume. If every write left all or nothing, exactly the written candles are loaded. A first write that is torn (something, not everything written) and followed by an entire one makes the load return an error and no candles at all, not even those before, although the save reported success. That a candle written entirely is loaded or an error is reported is false: many torn writes make a line too long, which ends the load silently. A read that fails is never reported; a file that cannot be opened is, without candles; no other file is touched.", "quantifier": "all lists of candles with 32-bit times, all fates of every write, all points where reading stops, all contents of the file system", "why_tests_cant": "The fates of the writes are exponentially many, and a torn line joined with the next could look like a candle; tests never make a write fail in the middle.", "anchors": ["market/candle_load.go:13-94"]}
{"id": "C117", "title": "A copy of a strategy's actions shares the collections that existed, and only those", "statement": "With Go's maps as references: two Actions that hold no map and no array in common each show exactly what the calls made on them give, whatever is called on the other. If an Actions struct is copied and both copies are used in any order, a collection that was nil at the copy becomes two maps, each showing its own additions, while a collection that was not nil remains one map in which both copies see the additions of both (in the order made). Annotations are independent if their array was full; with room in it, what the second copy appends replaces what the first appended. So a copy is not a snapshot (refutation).", "quantifier": "every memory, every Actions, every sequence of calls of the six Add methods on the original and the copy, every id stream, every capacity policy", "why_tests_cant": "Tests call the Add methods on one fresh Actions; sharing shows only for copies made at particular moments, and the effect on annotations depends on the capacity the runtime happens to choose.", "anchors": ["strategy/actions.go:4-11", "strategy/actions.go:13-70"]}
{"id": "C118", "title": "ModifyInterval never touches existing memory; only a single candle is handed back by reference", "statement": "With explicit backing arrays and every read going to memory at its moment: ModifyInterval returns what the value-level model says, and changes nothing that existed before, not even array elements beyond the length of the caller's slice. For every number of candles but one the result shares no memory with anything that existed, so later stores and appends on either side are invisible on the other. With exactly one candle the result is the caller's own slice: a store into the result changes the caller's candle and an append can overwrite the caller's next one (refutation of 'the result is a copy').", "quantifier": "every memory and slice, every interval and time zone, every capacity policy", "why_tests_cant": "Tests compare the returned values only; sharing shows when the result is changed afterwards, and only for an input of one candle.", "anchors": ["market/candle.go:36-83", "market/candle.go:134-166"]}
{"id": "C119", "title": "CalculateOverlap and the gain that can be made between two books", "statement": "A deal buys amounts from the asks of one book and sells the same total to the bids of the other; matching the best ask with the best bid while that pays makes the largest gain of all deals, and that gain is unique. For sorted binary64 books with positive volumes CalculateOverlap reports an overlap exactly when some deal, in either direction, makes a gain. Over exact numbers, with rows outside the overlap on both sides and enough bid volume, the value reported is the absolute gain of one particular deal: every ask not above the best bid is bought and sold to the overlapping bids from the worst upwards. If that deal does not lose, the value is between 0 and the best gain; if only the best bid overlaps, it is the best gain. In general it is not: there are books where 100 is reported though no deal makes more than 10, and books where 2 is reported though 4 can be made (refutation of 'the value is the best gain').", "quantifier": "every pair of sorted books; detection over all finite binary64 rows, values over the reals", "why_tests_cant": "A test compares the value of one pair of books with a number worked out by the same recipe; that the recipe is a deal at all, that it can lose, and what the best deal makes need the space of all deals.", "anchors": ["market/orderbook.go:288-326", "market/orderbook.go:328-342"]}
{"id": "C120", "title": "Every fractal of a coarser interval is a fractal of the finer one", "statement": "Resampling invents no turning points: for every fractal WilliamFractals reports on the output of ModifyInterval, some candle of the group it stands for is reported on the original series with the same kind and price; in a regular series its time is less than one interval later. A group is reported exactly if its outermost price turns: the two groups before stay inside, and no group goes beyond before two stayed inside. The first candle with the highest high (lowest low) of a series, unless one of its first or last two, is always reported, and stays visible at every interval where its group is not among the first or last two and the two groups before do not reach its price. The converse is false: a fractal of the finer series can vanish (refutation).", "quantifier": "every series with highs and lows within +-1e308, every interval and time zone for which ModifyInterval succeeds", "why_tests_cant": "It relates the outputs of two functions on two series of different length, for all groupings; tests run each function on a fixed series.", "anchors": ["indicators/williams_fractals.go:30-117", "market/candle.go:36-83", "market/candle.go:134-166"]}
{"id": "C121", "title": "The indicators of a resampled series: averages of the last candles, wider ranges, RSI further from 50", "statement": "For every successful call of ModifyInterval: MovingAverage, ExponentialMovingAverage, SmoothedMovingAverage and RSI of its output are, bit for bit, those of the series of last candles of the groups. The volatility of the output is at least that of any series with one candle picked from each group. Leaving candles out of a window, except its first and last, moves RSI away from 50 (up to twice the error of C80): each RSI value of the resampled series is at least as far from 50, on the same side, as the RSI of the original candles from the last of its first group to the last of its last group.", "quantifier": "every series, interval and time zone for which ModifyInterval succeeds; volatility for 0 <= beta <= 1 and prices within +-1e308, where both values are finite; RSI within the magnitude bounds of C80", "why_tests_cant": "It relates two indicator runs on series of different length; a test would have to know the relation, and no finite set of series covers all groupings.", "anchors": ["market/candle.go:36-83", "market/candle.go:134-166", "indicators/ma.go:8-131", "indicators/rsi.go:8-48", "indicators/ewv.go:7-17"]}
{"id": "C122", "title": "Actions filled by several goroutines: a lock loses nothing, a nil collection without one does", "statement": "Several goroutines call the Add methods of one Actions, one collection at a time. With a lock held during each call, no schedule panics or deadlocks, and once all calls are made the collection holds exactly what was there plus the actions of all calls under their ids (annotations: all of them, behind those already there, in some order). A map that exists before the first call needs no lock for this, if a map assignment is one step. Without a lock a nil map can lose either of any two actions added by two goroutines, both calls returning normally; it never panics, never writes to another map and never holds an action nobody added. Annotations can lose a whole call without a lock even when the slice exists.", "quantifier": "every number of goroutines, every list of calls of each, every scheduler; every kind of action; ids all different; any memory before, and any spare capacity given by append", "why_tests_cant": "Lost additions need a particular interleaving of two memory accesses that tests almost never produce, and the absence of loss under a lock is about all interleavings.", "anchors": ["strategy/actions.go:13-70", "strategy/order_actions.go:20-45", "strategy/position_actions.go:19-30"]}
{"id": "C123", "title": "Reading JSON into an order book: which memory is written, by whom it is seen, and what an error leaves", "statement": "json.Unmarshal into an OrderBook, with explicit backing arrays. An array is read element by element over the rows the slice can reach (up to its capacity); every slice that shares these places shows the new rows there and everything else as before. An array with more elements than the capacity, or none, leaves the variable with memory of its own (the places within the old capacity have been overwritten all the same). Books that share nothing never notice each other's reads, whether or not an error is returned. Reading the text of a stored book into a book gives exactly the stored book, and a copy of the struct made before keeps its time and depth but shows the beginnings of its rows replaced. A text that is not JSON changes nothing; any other error leaves what could be read: each readable row is read, whatever is wrong with the others. Refuted: a copy is a snapshot; an error changes nothing; a member left out of the last array is zero (rows hidden by a shorter array come back).", "quantifier": "every memory, every book whose two slices are valid (and share nothing with each other), every text, every growth policy", "why_tests_cant": "The effect depends on capacities and on who else holds the array, which values cannot show; tests look at the variable that was read into.", "anchors": ["market/orderbook.go:12-17", "market/orderbook_types.go:6-10"]}
{"id": "C124", "title": "Position used by several goroutines: a lock makes Modify sequential; without one trades, quantities and the average price go wrong", "statement": "Every access to a field of a shared *Position is one step of some goroutine. With a lock held during each Modify, whatever the scheduler does, nothing panics, there is no deadlock, and whenever the lock is free the position is the one the trades made so far give one after the other, each goroutine's in its own order. If all trades increase the position every one is listed behind the earlier ones, and in exact arithmetic the scheduler decides nothing but the order of the list. With or without a lock no call panics, the identifying fields never change, and every id listed was there or belongs to one of the trades. Refuted without a lock: of any two increases of any position both can be listed and the quantity of either missing; or quantity and price are right and either is missing from the list; three units bought at 100 each can show an average price of 150; two sales of six from ten can both be accepted though in either order the second is refused.", "quantifier": "every number of goroutines, every list of trades each, every schedule, every memory in which the list of trades is valid, every growth policy", "why_tests_cant": "Interleavings cannot be chosen in a test, and a test run that happens to go well says nothing about the others.", "anchors": ["market/position.go:33-49", "market/position.go:125-186"]}
{"id": "C125", "title": "Prices in whole ticks of a power of two: averages are rounded once, RSI depends on the ratio of rises to falls alone", "statement": "Let the closes be whole multiples of a unit 2^e (quarters of a cent, 2^-8, ...) and let no window add up to more than 2^53 units. Then every float64 value of MovingAverage is the exact mean of its window rounded once, whatever the window length; it lies between the lowest and the highest close of the window; and it depends on the total of the window only, so not on the order. If all closes are equal, MovingAverage and SmoothedMovingAverage return that price exactly, and so does ExponentialMovingAverage when the period is one less than a power of two (for other periods it need not: closes of 15 and period 5 give more than 15). Every RSI value is decided, to the last bit, by the ratio of the total of the rises to the total of the falls in its window - two series in different units, from different zeros, with different periods give the same float32 when the ratios agree - and a larger ratio never gives a smaller value.", "quantifier": "every unit 2^e with -1074 <= e <= 970, all series in whole ticks whose window sums stay within 2^53 ticks, every period, every spare capacity", "why_tests_cant": "A test compares a few decimal prices with a tolerance; that sums are exact and only the division rounds, for all series on the grid, is a statement about every float64 input.", "anchors": ["indicators/ma.go:MovingAverage", "indicators/ma.go:SmoothedMovingAverage", "indicators/ma.go:ExponentialMovingAverage", "indicators/rsi.go:8-48"]}
{"id": "C126", "title": "Quantities in whole lots of a power of two: the position is the one a count of the lots gives, and is closed by exactly the last lot", "statement": "Let all quantities be whole multiples of a lot 2^e, together at most 2^53 lots. After every history of trades the float64 Quantity, the Open flag and the list of trades are exactly what counting lots in integers gives: a trade on another pair, without direction or larger than the position by more than the lots that fit into 0.0001 changes nothing; the others add, subtract or close. With lots of 2^-13 or more nothing fits into 0.0001, so a position bought in any number of parts and sold in any number of parts is closed by exactly the trade that makes the sums meet, every trade is listed, and until then Quantity is the difference. With smaller lots a sale of more than there is can close it (one lot of 2^-20, fifty sold). With prices in ticks of a power of two as well, UnrealizedProfit and the Profit of the closing trade are exact.", "quantifier": "every lot size 2^e with -1074 <= e <= 970, every history of trades within 2^53 lots, long and short", "why_tests_cant": "A test with 0.1 and 0.2 shows that decimal quantities go wrong (C96_decimal_dust); that quantities on a binary grid never do, for any number of trades, needs a proof about float64 addition.", "anchors": ["market/position.go:52-73", "market/position.go:115-186"]}
{"id": "C127", "title": "Unrealized profit asked for while others trade: right with a lock, and without one a mixture of two positions that never was", "statement": "Goroutines call Modify and UnrealizedProfit on one position, every access to a field being one step. With a lock held during each call every answer is the profit of the position that an initial part of each goroutine's trades leads to, position and answers are those of the calls made one after the other, and there is no deadlock. While nobody trades no lock is needed: every answer is right and nothing changes. Without a lock asking still disturbs nothing: whatever becomes of the position can become of it when nobody asks. Refuted without a lock: during any increase of any position the answer can be computed from the new price and the old quantity, and during any trade from the old price and the new quantity. With one unit bought at 100, nine more at 200 and a price of 150, the profit is 50 before and -400 after, and the answer can be 500 or -40.", "quantifier": "every number of goroutines, every list of calls each, every schedule, every memory in which the list of trades is valid, every growth policy", "why_tests_cant": "A torn read needs the scheduler to stop a goroutine between two particular field accesses; a test cannot ask for that, and one that passes says nothing about the other schedules.", "anchors": ["market/position.go:115-122", "market/position.go:125-186"]}
{"id": "C128", "title": "Order books in whole ticks and whole lots of powers of two: accumulated volumes and CalculateOverlap are exact", "statement": "Let prices be whole multiples of a tick 2^e and volumes whole multiples of a lot 2^f, with 2^53 ticks, lots and products still float64s. The AccumVolume at index i of a book built by NewOrderBook is exactly the number of lots up to i, as long as a side has at most 2^53 lots. Updates on the grid keep every row on the grid, for every history. CalculateOverlap of two such books, each side within 2^53 lots and worth at most 2^53 units 2^(e+f), returns in float64 exactly what it returns in exact arithmetic, panics and errors included; for sorted overlapping books that is the formula of C15. Refuted for decimal ticks: with prices in steps of 0.05, buying for 0.90 and selling for 0.90 gives an overlap that is not 0, though with the same prices counted in steps it is 0.", "quantifier": "every tick and lot with -1074 <= e, f, e+f <= 970, all books and update histories on the grid", "why_tests_cant": "A test checks a few books; that no rounding ever happens for any book on a binary grid, and hence that a caller who counts in such units may compare overlaps for equality, needs a proof about every float64 operation on the way.", "anchors": ["market/orderbook.go:19-73", "market/orderbook.go:136-255", "market/orderbook.go:288-341"]}
{"id": "C129", "title": "Volumes in whole lots of 1/32 or more: ModifyInterval loses nothing", "statement": "Let the volumes of a series be whole multiples of a lot 2^e with -5 <= e <= 970, with absolute values adding up to at most 2^53 lots. Whenever ModifyInterval succeeds on two or more such candles, each candle it returns carries exactly the sum of the volumes of the candles merged into it: neither the float64 additions nor the rounding to five decimals changes anything. Over the whole series nothing is lost but the candles skipped before the first interval start, and the result is again such a series. For regular candles, resampling in two steps gives exactly the volumes of resampling in one. With lots of 1/64 this fails.", "quantifier": "every lot 2^e with -5 <= e <= 970, all series of at least two candles with volumes in lots, all intervals, all time zones; for the two-step claim all regular series and all factors k, b >= 1", "why_tests_cant": "A test tries a few volumes; that the five-decimal rounding of a running float64 sum is the identity for every series on the grid, so that totals may be compared for equality before and after resampling, is a statement about all series.", "anchors": ["market/candle.go:ModifyInterval"]}
{"id": "C130", "title": "Order requests in whole ticks and lots of powers of two: exact totals, and the total buys the same quantity back", "statement": "Let the price used by CalculateFields (the current one for market orders, else the request's) be p whole ticks of 2^e and let the quantity be q whole lots of 2^f. A request by a quantity other than zero, with |q*p| <= 2^53, gets exactly the total q*p*2^(e+f). A request by the total q*p*2^(e+f) with p and q not zero gets exactly q lots. So the total of a completed request, used for a new request without quantity, gives the same quantity again. No other field changes. With quantities and prices in tenths the way back fails.", "quantifier": "every tick and lot with -1074 <= f, e+f <= 970, all requests with quantity and price on the grid, all current prices", "why_tests_cant": "A test divides a few totals by a few prices; that float64 multiplication followed by division gives back every quantity on a binary grid, though it does not for 0.1, is a statement about all pairs of numbers.", "anchors": ["market/order_request.go:CalculateFields"]}
{"id": "C131", "title": "Fees of NewTrade in whole ticks and lots are exact, and a completed request by quantity has none", "statement": "Let price, quantity and cost of a trade be whole multiples p, q and k of 2^e, 2^f and 2^(e+f), with |p*q| and |k - p*q| at most 2^53. The Fee NewTrade records is exactly k - p*q units for a buy and p*q - k units otherwise, and it is zero if and only if k = p*q. For all numbers, on a grid or not: when CalculateFields completes a request by quantity and its total is finite, the trade for that quantity and total at the price used has a fee of zero. A request by total need not: a total of 1 at a price of 49 leaves a fee.", "quantifier": "every tick and lot with -1074 <= e+f <= 970, all trades on the grid; all requests with finite quantity, price and product, all actions", "why_tests_cant": "A test checks a few fees; that a fee is never invented or lost to rounding on a binary grid, and that two separate functions agree on quantity times price for every pair of float64s, are statements about all inputs of both.", "anchors": ["market/trade.go:NewTrade", "market/order_request.go:CalculateFields"]}
