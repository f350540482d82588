# id -> (status, note); theorem names are collected from rocq/theories/Props/*.v by prefix.
STATUS = {
    "C01": ("proved", "Sequential calls; arbitrary start counter; see C02 for interleavings."),
    "C02": ("proved", "Sequentially consistent interleavings of the individual shared accesses; see C03 for the C++ memory orders."),
    "C03": ("proved", "The source's orders are refuted (a race for every capacity); with acquire/release added, race freedom and FIFO hand-off for every execution of the view machine; each order shown necessary."),
    "C04": ("proved", "Consumer-side reset linearizes as dropping a snapshot of the queue; a producer-side reset is refuted for every capacity above 1 and all starting counters."),
    "C05": ("proved", "Bounded-queue refinement with the exact wrap condition, and its failure (C05_dyn_counter_wrap_refuted) for every capacity not dividing 2^W."),
    "C06": ("proved", "Head-offset constructor, set_read_offset/set_read_pos refine a tape of the last capacity items; beyond-capacity offsets refuted."),
    "C07": ("proved", "Both buffers; capacities 2^k, any size_t width above k; peek guarded to items that exist."),
    "C08": ("proved", "Delay semantics for a buffer that is not full; out-of-range and full-buffer uses refuted."),
    "C09": ("proved", "Any positive capacity, any initial array contents."),
    "C10": ("proved", "For every crossfade function; C82 treats the float crossfade itself."),
    "C11": ("proved", "Blocks no longer than the buffer, as the property says."),
    "C12": ("proved", "Byte-level model of the memcpy calls; the multi-byte case is refuted for every element size >= 2."),
    "C84": ("proved", "Byte-level model; refuted for every element size >= 2, proved for 1."),
    "C85": ("proved", "Refuted: the constructed stack is observationally an empty one, for every history."),
    "C13": ("proved", "All operations, any capacity; the strict reading of operator[] at MaxElements is refuted separately."),
    "C14": ("proved", "Hardware function as an oracle; with refusing hardware the exactly-once claim is refuted."),
    "C15": ("proved", "Includes the overflow behaviour; const operator[] on a missing key is refuted."),
    "C16": ("proved", "The value of insert is lost in every reachable state; flag, size and key presence proved."),
    "C17": ("proved", "Any capacity > 0 and any initial array contents; capacity 0 refuted."),
    "C18": ("proved", "All operations, by refinement to the slots in storage order."),
    "C19": ("proved", "Histories of all copies including from its own buffer; capacity 0 refuted for string_view."),
    "C20": ("proved", "Pointers are slot indices or foreign."),
    "C21": ("proved", "Interleavings of atomic exchanges plus happens-before views for the elements; clear excluded and refuted."),
    "C22": ("proved", "All blobs, keys and unsigned size types narrower than size_t; the blob plus the largest size must stay below PTRDIFF_MAX."),
    "C23": ("proved", "All record lists, both key kinds, signed and unsigned size types."),
    "C24": ("proved", "Descriptions are trees of calls; values are given by their bytes."),
    "C25": ("proved", "Every buffer length, stream included."),
    "C26": ("proved", "Equality with the serializer holds in buffers of any length; deeper nesting is characterised exactly."),
    "C27": ("proved", "Exact truncation, an iff for the round trip, and a forging witness."),
    "C28": ("proved", "Both directions of the key comparison and the written padding."),
    "C29": ("proved", "For every size-field width equal to size_t."),
    "C86": ("proved", "For every signed width up to size_t."),
    "C30": ("proved", "Any storage with the stated laws, any initial content, any history; the counter type is wide enough for N+1."),
    "C31": ("proved", "Crash points are before, inside and after each storage access of the write."),
    "C32": ("proved", "The access log of each write is determined; equal wear; termination on arbitrary storage."),
    "C33": ("proved", "Exact behaviour of WearLevel after k failing erases, the WearLeveler bound on arbitrary storage, and the forgotten data."),
    "C87": ("proved", "Stated for every storage whose reads fail."),
    "C34": ("proved", "Exact buffer contents and result for every value and buffer; correct iff no zero digit."),
    "C35": ("proved", "Bounds for every non-zero value; value 0 and INT_MIN violations stated exactly."),
    "C36": ("proved", "Exact output for every value and buffer; the documented contract on the values where it holds; 1 and 10 as violations in every buffer."),
    "C37": ("proved", "All 32-bit values."),
    "C38": ("proved", "All int32 except INT_MIN (undefined) and all uint32."),
    "C39": ("proved", "All strings; the view length is shown to be irrelevant."),
    "C40": ("proved", "characters that are not negative as plain char; a negative one is undefined behaviour (theorem)"),
    "C41": ("proved", ""),
    "C42": ("proved", ""),
    "C43": ("proved", ""),
    "C44": ("proved", ""),
    "C45": ("proved", ""),
    "C88": ("proved", ""),
    "C89": ("proved", ""),
    "C46": ("proved", ""),
    "C47": ("proved", ""),
    "C48": ("proved", ""),
    "C49": ("proved", ""),
    "C50": ("proved", ""),
    "C51": ("proved", ""),
    "C90": ("proved", ""),
    "C91": ("proved", "int instantiation, arbitrary width"),
    "C92": ("proved", ""),
    "C52": ("proved", "All histories of calls; Toggler and TogglerCompact share the model."),
    "C53": ("proved", "Every pair of states; the lost press is proved."),
    "C54": ("proved", "Any patterns and mask of n ones, single-bit samples."),
    "C93": ("proved", "Witness history and the general statement."),
    "C94": ("proved", "All 0/1 sample histories; samples above 1 characterised."),
    "C95": ("proved", "All histories."),
    "C55": ("proved", "Unsigned clocks of every width; signed clocks too; the missed expiry is proved."),
    "C56": ("proved", "All histories and clock values."),
    "C57": ("proved", "All histories of each detector."),
    "C60": ("proved", "Float samples as IEEE values (stdlib SpecFloat), NaN included."),
    "C96": ("proved", "All histories; values whose difference fits the type."),
    "C58": ("proved", "Pins are both low before the first call. All three clauses for arbitrary streams."),
    "C59": ("proved", "Single record and a table of records with transfers between distinct records."),
    "C61": ("proved", "Exact rational arithmetic, plus a single-precision witness of the violation."),
    "C76": ("proved", "The x direction and fractional polygons are refuted, with the exact set of failing inputs."),
    "C97": ("proved", "int is 32 bits."),
    "C62": ("proved", "Bit-field layout from the low end is an ABI assumption, named in the model."),
    "C63": ("proved", ""),
    "C64": ("proved", ""),
    "C65": ("proved", ""),
    "C98": ("proved", "Exact rational arithmetic; scaling by 32 or 64 is exact in binary floating point."),
    "C99": ("proved", "The float blend is modelled in single precision without contraction to fused multiply-add."),
    "C100": ("proved", ""),
    "C101": ("proved", ""),
    "C66": ("proved", "Moving average over every stream and every power-of-two size; oversampler over every stream."),
    "C67": ("proved", "Phase, triangle and down-counter, for every number of updates."),
    "C83": ("proved", "Exact duration for whole milliseconds up to 2^24 in single precision; quiet histories show the calibrated base colour."),
    "C102": ("proved", "Exact block means and a refutation of the static assertion."),
    "C103": ("proved", "Refinement to a list of blocks, with the float sums in order."),
    "C104": ("proved", "Rational arithmetic."),
    "C105": ("proved", "Exact behaviour for any two filters; the refutation is for every pair of equal samples through two oversamplers."),
    "C106": ("proved", "For any table."),
    "C107": ("proved", "Exact arithmetic, and single precision counterexample for all n."),
    "C108": ("proved", "Exact drift."),
    "C68": ("proved", "any history of allocate/reset/free_space calls; pointers are offsets into the arena"),
    "C69": ("proved", "the request size, with size_t of any width; aligned_alloc itself is not modelled"),
    "C70": ("proved", "the width of the selected type; the combinations which do not compile are characterised"),
    "C71": ("proved", "any number of containers of one element type; the body may assign through the references"),
    "C72": ("proved", ""),
    "C73": ("proved", ""),
    "C74": ("proved", "for any sort that meets the contract of std::ranges::sort"),
    "C109": ("proved", ""),
    "C110": ("proved", ""),
    "C75": ("proved", "InterpParam in exact arithmetic; FilteredInterpArray over any arithmetic, any filter and any history; the wrap of the 32-bit counter is a refuted theorem."),
    "C77": ("proved", "Exact rational arithmetic; the single-precision failures are refuted theorems with witnesses."),
    "C78": ("proved", "Integers of any range; single precision with NaN samples ignored, order proved through an embedding into Z."),
    "C79": ("proved", "Event log of constructions, calls and destructions; the temporary of the by-value constructor parameter is not recorded. Copy and assignment are refuted theorems."),
    "C80": ("proved", "Any element type and capacity below 2^64."),
    "C111": ("proved", "Sequentially consistent interleavings of single shared accesses; the readings are versions."),
    "C112": ("proved", "Signed overflow is excluded (Z values)."),
    "C81": ("proved", "In exact arithmetic lookup, generate, interp, interp_wrap, closest and closest_wrap are characterised completely for the documented arguments; beyond them interp reads outside the array and interp_wrap extrapolates below 0 or is undefined. In single precision: never out of bounds, clamping outside the range, exact conditions for the undefined float-to-integer conversion (min = max at that value, phase*Size >= 2^32). Tables up to 2^24 entries. The float theorems use the standard library's real-number axioms."),
    "C82": ("proved", "Finite floats over finite slots are stored exactly (up to the sign of zero), for write and write_reverse and all data; integers up to 2^24 are exact. Violations: a non-finite slot stays non-finite after every history without clear(), for all phases; 2^24+1 is rounded and INT_MAX is undefined."),
    "C113": ("proved", "The bit-field read is modelled as the low bits (little endian targets); the unsigned sample type is refuted as a usable signed value."),
    "C114": ("proved", "At most 24 used bits for the exact statements; wide types, NaN and 32 used bits refuted as safe."),
    "C115": ("proved", "At most 24 used bits; round trip refuted. Fused multiply-add contraction by the compiler is not modelled."),
    "C116": ("proved", "Accumulator preservation and NaN propagation are refuted."),
    "C117": ("proved", "OR refuted: every call reads an uninitialised variable."),
    "C118": ("proved", "The IEEE encoding is specified in Spec/FloatBits.v and shown to be onto."),
    "C119": ("proved", "End point of interpolate3 refuted. No fused multiply-add contraction."),
    "C120": ("proved", "Accuracy against the parabola of the code comment's quarter points, and to 0.06 against the sine of the opposite sign."),
    "C121": ("proved", "Turn-on threshold refuted."),
    "C122": ("proved", "Loop fuel is an explicit argument. Any-argument claim refuted. Not stated: sin and cos from 2^23 up to where the conversion is undefined, and the last digit between the accurate and the undefined range below 0. No fused multiply-add contraction."),
    "C123": ("proved", "Negative exponents and termination refuted. Every argument is classified except -0.002443 < x < -0.0024425; 83886088 and 83886096 are neighbouring floats."),
    "C124": ("proved", "The error bound is one-sided because the logarithm is concave."),
    "C125": ("proved", "Between 1.5 and 1.5695 no accuracy is stated. Sign near pi/2 and negative arguments refuted."),
    "C126": ("proved", "pow9 as a ninth power refuted."),
    "C127": ("proved", "Ramp below 1 refuted."),
    "C128": ("proved", "Long and short periods refuted. A narrow band of products around 2^32 is not stated."),
    "C129": ("proved", "Rounding to nearest. Arrival and small changes are refuted with witnesses."),
    "C130": ("proved", "Against the piecewise linear curve in Spec/PolyLine.v; rounding to nearest."),
    "C131": ("proved", "One step bounds for both filters, history bounds for the hysteresis filter. Settling of the quadratic filter is refuted with witnesses."),
    "C132": ("proved", "Bounds relative to the sizes of the terms; slopes between 2^-30 and 2^30."),
    "C133": ("proved", "Against exact means (Spec/RealMean.v)."),
    "C135": ("proved", "transmit of one word is interrupted between two of its push_back calls, before the first or after the last; refused words included. Interruptions inside push_back and start_tx are not modelled."),
    "C137": ("proved", "Elements are of trivial type. The allocator of the big heap (sys/alloc_buffer.hh) is not in the repository; plain new and delete are modelled."),
    "C134": ("proved", "Rounding to nearest. End points also in C99."),
    "C136": ("proved", "Rounding to nearest. Arrival is refuted with a witness."),
    "C138": ("proved", "Float companion of the exact-arithmetic model."),
    "C139": ("proved", "Elements are lists of bytes; the static capacity variant."),
    "C140": ("proved", "Rounding to nearest. The driver takes its parameter as uint8_t."),
    "C141": ("proved", "Same weak-memory model as C03. reset() is excluded: it races as shown in C03."),
    "C142": ("proved", "clear() is excluded (C21 shows why). Exchanges are seq_cst as in the source; is_used is the acquire load of the source."),
    "C143": ("proved", "Fades of whole milliseconds up to 2^24; float rounding to nearest. Fades during a running breathing are excluded by not_breathing."),
    "C144": ("proved", "Rounding to nearest; weights up to 2^100 in the refuted part."),
    "C145": ("proved", "An interrupted erase may leave any subset of the cells erased; storage is any one meeting the contract in Spec/WearSpec.v."),
    "C146": ("proved", "One core, accesses in program order, handlers not interrupted. Counter-examples are given for all states that allow them."),
    "C147": ("proved", "Calls of the main program are split into their loads and stores of head_, tail_, full_ and the items; the handler's calls are atomic (Model/CircularIrq.v). Members are taken to be accessed in program order, which the code does not ask of the compiler."),
    "C148": ("proved", "Calls of the main program are split into their loads and stores of used and data; the handler's calls are atomic (Model/PoolIrq.v). Reading or writing a whole object counts as one access, and accesses are taken to happen in program order."),
    "C149": ("proved", "The arithmetic of T is a parameter; the line is exact over rationals and bounded over binary32 (Model/InterpVar.v). The float bound covers magnitudes up to 2^120 and at most 2^22 updates."),
    "C150": ("proved", "Calls of the main program are split into their loads and stores of back_idx and single elements; the handler's calls are atomic (Model/VectorIrq.v). Accesses are taken to happen in program order."),
    "C151": ("proved", "Keys, values and counters are one access each and a pair is copied member by member (Model/MapIrq.v); the handler's calls are atomic. Accesses are taken to happen in program order."),
    "C152": ("proved", "Stated for a crossfade that returns the new data, i.e. phase 1 on values that survive the float arithmetic; C82 says which values do."),
    "C153": ("proved", "every character loaded or stored is one access; the handler's calls are atomic; the source of a copy is not shared except for a copy from the string itself; main copies with a handler that looks, main looks with a handler that copies or clears; three limits refuted for all capacities and texts"),
    "C154": ("proved", "every member read or written is one access; the handler's calls are atomic; single-moment claims in any arithmetic, the line over exact numbers; four limits refuted for all states"),
    "C155": ("proved", "every member read or written is one access; the handler's calls are atomic; the condition on the polling side is shown necessary by a refutation"),
    "C156": ("proved", "every load or store of a position or an element is one access; the handler's calls are atomic; three limits shown by refutations for every such state"),
    "C157": ("proved", "That containers behave as lists whatever is left in moved-from elements is proved; that removing an element releases what it owns is refuted with the exact set of elements kept."),
    "C158": ("proved", "Any tree of inner calls; the hardware function accepts (returns true)."),
    "C159": ("proved", "every load or store of an index, the full flag or an element is one access; the handler's calls are atomic; five limits shown by refutations for all such states"),
    "C160": ("proved", "sequentially consistent interleavings of single accesses; reset by the producer excluded as in C04; moving back refuted for every capacity"),
    "C161": ("proved", "weak-memory model of C03 (program order, no load buffering); set_read_offset only with at most the announced number of items"),
    "C162": ("proved", "raw() with bytes of its own buffer: the record for the old bytes when they lie before the write position or behind the header, otherwise the header repeated (refutation for every position, width and length); copy of the string's own text; map insert and overwrite with a stored value. printRaw of a ByteBlock with its own bytes: exact up to one byte of overfill, freed storage read beyond (for every growth policy). field() with a reference into the buffer, and begin/end_object, are not given such arguments here."),
    "C163": ("proved", "Storage whose erase reports success; the storage class is arbitrary (record of functions). An honest storage reports whether it kept the data, a dishonest one need not. C163_refused_write_destroys_data_refuted shows that a refused write is not harmless."),
    "C164": ("proved", "Release/acquire views of the C++20 model, executions in program order; a reading is its number in its lane, so filters and interpolation are not part of it (C111 and the Interp properties have them). C164_marked_reading_lost_refuted and C164_ordinary_readings_second_batch_refuted state what the code does not guarantee."),
    "C165": ("proved", "Calls are atomic here; a transfer interrupted by a sample is C146. C165_update_reports_once_refuted states what update_state does not do."),
    "C166": ("proved", "The pulse length is proved in exact arithmetic; what rounding does to it is C107. In single precision proved are agreement with exact arithmetic for binary rates, silence without a start, ignored rates and the constructor."),
}
