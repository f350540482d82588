# Formal model of 4ms/cpputil in Coq 8.16.1

## 1. Layout

* `properties.jsonl` – the English properties (generated from `tools/props.py` by `tools/gen.py`).
* `MANIFEST.json` – which theorem proves which property (same generator).
* `rocq/theories/Common/*.v` – word arithmetic, checked memory, list lemmas.
* `rocq/theories/Model/*.v` – executable Gallina models of the C++ code; every definition cites file and lines. No proofs.
* `rocq/theories/Spec/*.v` – small, independent specifications (queues, maps, decimal rendering, ...). No proofs, no reference to models.
* `rocq/theories/Proofs/*.v` – lemmas and invariants.
* `rocq/theories/Props/*.v` – only property theorems, each closed by `exact lemma`, `Print Assumptions` beneath, and a satisfiability `Example`.
* `seeded/LOG.jsonl` – record of seeded-bug experiments.

## 2. Modelling conventions

* Fixed-width integers are `Z` (or `N`/`nat` for sizes) with the wrap written explicitly (`mod 2^w`). `size_t` has
  a parametric width `W` so both the 32-bit targets and 64-bit hosts are covered.
* An array is a `list`; reads and writes are checked (`rd`/`wr`), and an out-of-bounds access, a division by zero, a signed overflow that the
  standard calls undefined, or a failed float-to-int conversion is the distinct outcome `UB`, in an outcome monad `Ok a | UB`.
* Loops are structural recursion, folds, or explicit fuel with a distinct `Timeout` outcome that theorems exclude.
* Element types are arbitrary `Type`s (with decidable equality or a default value where the C++ code uses `==` or `T()`).
* Concurrency: small-step interleavings of individual atomic accesses (sequential consistency) for the linearizability
  claims; a view/vector-clock release-acquire machine for the memory-order claim.
* `float` is binary32 as `Coq.Floats.SpecFloat` (prec 24, emax 128), computable and axiom free, every operation rounded
  to nearest even. Contraction to fused multiply-add, excess precision and `-ffast-math` are not modelled.
  Where a property is stated "in exact arithmetic" the model is over the rationals, or over an arbitrary
  arithmetic given as parameters of the definitions, and single precision statements (or counterexamples) are separate.
  Statements about the real number a float stands for go through Flocq's `Bsingle` (`Common/F32Real.v`).

## 3. Per property: model and proof plan

| id | modelled as | proof |
|----|-------------|-------|
| C01 | state = (buffer list, head, tail as W-bit words); one function per method | refinement to bounded queue, invariant `head-tail mod 2^W = length`, induction over op list |
| C02 | two program-counter threads, one shared access per step | invariant + explicit linearization points; statement: trace with Lin events legal for queue spec and erasing to history |
| C03 | message/view memory with per-thread views and race detector | `_refuted` execution for relaxed load; invariant proof for acquire variant |
| C04 | same machine as C02 with reset steps | schedule built for every capacity, run by induction over the puts; consumer-only reset proved by the C02 invariant |
| C05 | as C01 with `mod max_size` | refinement under no-wrap or divisibility; witness history |
| C06 | C01 model + offset operations | refinement to "log of all puts + read position" |
| C07,C08 | records (buffer, head, tail, full flag) | refinement to overwriting queue; peek/set_head by index arithmetic |
| C09 | record (buffer, top, bottom, count flag) | refinement to bounded stack |
| C10,C11,C82 | buffer + positions, loops by recursion on block | refinement to cyclic indexing; element-wise loop invariant; SpecFloat witness for C82 |
| C12 | byte-level memcpy over element size s | index arithmetic; witness for s>1 |
| C13 | array + count | refinement to list |
| C14 | two FixedVectors + flag + emitted log | invariant over histories |
| C15,C16 | key array, value array, size | refinement to assoc list; exact post-state of insert |
| C17,C18 | array of optional keys + oldest index | refinement to FIFO-evicting map |
| C19 | char array of N+1 | exact post-state |
| C20,C21 | slots + used flags; n threads with CAS steps | invariants over histories / schedules |
| C22–C29 | byte lists, key codec parametric; tree-shaped object descriptions | round trip by tree induction; safety by checked reads |
| C30–C33 | abstract storage device (array of blank/torn/valid cells) as executable functions plus failure oracle | invariants over histories incl. crash points |
| C34–C39 | digit loops by recursion | decimal rendering spec, digit induction |
| C40–C43 | strings as byte lists | list-segment specs |
| C44,C45 | strtol + tokenizer over byte lists | round trip, lexicographic order |
| C46–C51 | Z arithmetic with explicit wraps | arithmetic, bit lemmas |
| C52–C60 | event state machines | induction over histories |
| C61 | rational arithmetic | `lra`/`nra` on Q |
| C62–C65 | channel bit-fields in Z | arithmetic / finite sweeps lifted by lemma |
| C66–C67 | Z arithmetic with wraps | induction over streams |
| C68–C70 | Z arithmetic | invariants |
| C71 | iterator tuples | induction |
| C72 | LCG in Z mod 2^32, memory with alias map | Hull–Dobell argument proved directly; induction |
| C73 | byte lists | arithmetic |
| C74 | index lists, arbitrary descending permutation | greedy balance invariant |
| C75,C77,C81 | rationals | field arithmetic; partial w.r.t. float rounding |
| C76 | Z coordinates | lia |
| C78–C80 | state machines | induction |
| C83 | DownCounter + LED state | arithmetic |
| C84,C85 | byte-level memset; stack record | computation on the model for every size; observational equality with an empty stack |
| C86 | get_node with a signed size field | exact condition, witness |
| C87 | storage whose reads fail | exact result for every such storage |
| C88,C89 | strtol on the bytes behind the view | list lemmas; modular arithmetic |
| C90–C92 | Z arithmetic with wraps | arithmetic, witnesses |
| C93–C95 | button state machines | induction over histories, witness history |
| C96 | last value + threshold | induction over histories |
| C97 | 32-bit coordinates with overflow as UB | lia, witness |
| C98–C101 | channel arithmetic in Z, SpecFloat for the float blend | arithmetic; finite sweeps lifted by lemma; witness by computation |
| C102–C105 | filter states over Q or an arbitrary arithmetic | refinement to lists of blocks; field arithmetic |
| C106–C108 | oscillator records | induction over updates; single precision counterexample for all n |
| C109 | memory of bytes, region end | exact footprint |
| C110 | sizes in Z | arithmetic |
| C111 | interleaving machine of single shared accesses | invariant |
| C112 | truncated division in Z | induction over updates |
| C113–C115 | sample words in Z, SpecFloat scaling | Flocq bridge: exactness of every operation up to 24 used bits; witnesses |
| C116,C117 | records of four floats; bit words | case analysis on IEEE values; bitwise induction |
| C118 | bit patterns in Z, independent IEEE encoding in `Spec/FloatBits.v` | case analysis on the encoding |
| C119–C121 | SpecFloat expressions | rounding-error bounds via Flocq, monotonicity of rounding |
| C122–C126 | the 2048-entry tables of `math_tables.cc` as integers of the printed decimals rounded to floats, table reads in SpecFloat | entry errors checked by a verified sweep against rational enclosures of sin, exp, ln; interpolation error by Taylor bounds; rounding error by Flocq |
| C127,C128 | oscillator records + SpecFloat | rounding bounds + C122 |
| C129,C131,C132 | SpecFloat expressions over the models of C75, C104, C77 | rounding-error bounds via Flocq, induction over updates; witnesses for what is refuted |
| C130,C133 | the models of C81, C102 with floats; curve and mean over the reals (`Spec/PolyLine.v`, `Spec/RealMean.v`) | rounding-error bounds, Lipschitz bound of the curve, induction over the sum |
| C134,C136 | SpecFloat expressions over the models of C63, C78 | rounding-error bounds via Flocq, monotonicity of rounding, induction over samples; witnesses |
| C135 | transmit of C14 split at the interruption | simulation by the specification of C14 |
| C139 | the span constructor over elements as lists of bytes (`Model/FifoSpan.v`) | the constructed state is the queue invariant's state with an empty or byte-limited content |
| C140 | integer and float products of `set_color` (`Model/RgbLed.v`) | division bounds; one rounding-error bound |
| C141 | weak-memory FIFO with the source's orders plus a consumer that counts first (`Model/FifoPolled.v`) | the invariant of C03 with a credit: items known to be visible; legal histories in `Spec/PolledLog.v` |
| C142 | per-flag message histories and thread views over the concurrent pool (`Model/PoolUsed.v`) | invariant: what a thread knows of a flag bounds which element accesses it has seen; witnesses for races |
| C143 | the LED model of C82, C83 with breathing and fading (`Model/RgbLed.v`, `Model/Oscs.v`) | invariant over histories, closed form of countdown and triangle after n updates; one rounding-error bound for the increment |
| C144 | float weight cast to a byte, then the packed blends of C63 (`Model/Color.v`) | cast bounds, comparison with the exact mixture in rationals |
| C145 | lives: sequences of calls and writes cut off at any storage action, each followed by a restart (`Model/WearCrash.v`); lossy register (`Spec/WearCrashSpec.v`) | induction over lives with the invariant of C13 and the set of data present; witness for stale data |
| C146 | each function as its sequence of accesses, handler calls before every access (`Model/Irq.v`); `atomically` and who calls what (`Spec/IrqSpec.v`) | per call a moment of effect: at the clearing access if the flag is still set, else at the reading access (simulation of the two states); balance of motion by induction; invariant "not flagged implies seen" |
| C147 | access-level programs of CircularBufferOpt (`Model/CircularIrq.v`) run with the interrupt scheme of C146 | linearisation: an invariant (contents, not full) kept at every access, the moment of effect is the store of tail_; the failing windows as general counterexamples for every capacity |
| C148 | access-level programs of Pool (`Model/PoolIrq.v`) run with the interrupt scheme of C146 | create: the handler's calls never touch the slot being claimed, so they commute with the rest of the call; null only if the pool was full at the start; destroy takes effect at its store; counterexamples for every state |
| C149 | InterpParamVariable as a machine over histories with the arithmetic as a parameter (`Model/InterpVar.v`) | induction over the calls after set_new_value gives an iterated addition; exact sum over rationals, the error bound of C129 over binary32; infinities and NaNs absorb every later addition |
| C150 | FixedVector calls as sequences of accesses (`Model/VectorIrq.v`) over the interrupt machine of `Model/Irq.v` | readers of any object (`Proofs/Readers.v`): accesses that change nothing visible, one access that commits, then again nothing visible; for moves an invariant on the visible list |
| C151 | SeqMap and SequentialMap calls as sequences of accesses (`Model/MapIrq.v`) | scans are accesses that change nothing; commit access as for C150; for other keys an invariant that the key is found with its value in every visible state |
| C152 | model of C10 with the constructor; elements between the two positions as a queue (`Spec/DelaySpec.v`) | invariant: the queue is what lies between rd and wr modulo the size; induction over the history |
| C153 | `Model/StringIrq.v`: the calls of C19's string as sequences of character accesses, interrupted as in C144-C151 | copies: after j stores the array is the first j new characters followed by the old array; looks: invariant that a NUL lies at or behind the scanned position, which handler writes keep |
| C154 | `Model/InterpIrq.v`: the calls of C149's parameter as sequences of member accesses, interrupted as in C144-C151 | calls of next iterate one addition, so the interrupted call is computed for every placement; field for the line |
| C155 | `Model/RefIrq.v`: isChanged, reading and setting of RefParameter as sequences of member accesses, interrupted as in C144-C154 | invariant: the value last handed out is the one noted, unless a set came between noting and reading; refutation by computation for all values |
| C156 | `Model/AccessIrq.v`: the calls of C10's buffer as sequences of accesses to positions and elements, interrupted as in C144-C155 | the element access is the moment at which one element is transferred; until then and afterwards the state differs from the sequential one only in the main program's own position, which the other side never looks at; refutations by running to the end of the buffer |
| C157 | `Model/VectorMove.v`: FixedVector over elements with a move assignment of their own (what is left behind is a parameter), and the storage of pools, rings and FIFOs | pointwise description of the storage after std::move / std::move_backward, from which the refinement of C13 and the exact set of elements still held follow; for rings and FIFOs the slot of an element is not reused before capacity-many further puts |
| C158 | `Model/DoubleBufReentry.v`: the calls of C14 with the hardware function as a continuation that makes any tree of calls (`Spec/ReentrySpec.v` gives their order) | nothing is touched after the hardware function returns, so a call is the sequential one followed by the inner calls; induction over the tree, then C14 |
| C159 | CircularStack as its loads and stores (`Model/StackIrq.v`), the handler between any two of them, the plain stack of C09 as specification | step by step through each call with the set of lists a look may show; refutations by explicit interruption points for all states |
| C160 | the access machine of C02 with the two accesses of set_read_offset added (`Model/FifoSeek.v`), `Spec/SeekSpec.v` adds the call to the linearizability specification of C02 | the invariant of C02 (its step lemma reused) with the items chosen at the load as a ghost count; refutations by explicit schedules for every capacity |
| C161 | Model/FifoSeekWeak.v adds the two accesses of set_read_offset to the polling consumer of C141, over the weak-memory model of C03 (views and messages) | the invariant of Proofs/FifoWeak.v with its credit: the load turns the items found into credit, the store moves the tail inside it; refutations by explicit executions |
| C162 | Model/OwnBuffer.v: emit with the source bytes read from the buffer being written, one at a time; copy(view) reading its own storage; map calls reading the argument at the point of use | the byte-by-byte loop keeps source and destination apart when the ranges do not cross, else the destination is periodic (induction on the length); header bytes from Proofs/CompactBinary.v |
| C163 | the functions of C30 over storage with dead cells and failing writes (`Spec/WearAgeSpec.v`: ageing, worn_register) | the scan and write loops by induction with the invariant that no valid data lies at or above the counter; a write either keeps the data or leaves the cell without valid data |
| C164 | `mark_new_data_ready`, `add_new_readings` with their flag under release/acquire views (`Model/InterpWeak.v`), readings as relaxed atomics or ordinary memory | one invariant over all runs relates the flag's released view to what is marked; the lost mark is built from any state between two calls; ordinary readings by an invariant (one batch) and by the lanes already read (second batch) |
| C165 | two togglers and `transfer_events` as one transition system (`x_step`), `update_state` | the source's flags are determined by whether the level changed since the last transfer (induction over the history); samples by induction |
| C166 | OneShot as an object: increment and width under start, update, stop and rate changes (Model/OneShot.v), in exact arithmetic and in single precision | induction over the calls: the width left is the width minus the time elapsed; rounding is monotone, so a negative increment never shrinks the width |
| C138 | float state machine (`Model/VoctF.v`), measurements since reset (`Spec/VoctSpec.v`) | invariant over histories, rounding-error bounds |
| C137 | heap of blocks, variables holding addresses | simulation by variables holding values (`Spec/HeapSpec.v`); witnesses |

## 4. Trusted base

* Coq 8.16.1's kernel (including its `vm_compute` conversion), and for reading the result `coqchk`.
* The reading of the C++ text into the models. Nothing is extracted from or run against the code. Each definition cites
  the lines it stands for, and says where it simplifies.
* Axioms: `ASSUMPTIONS.md` (generated by `tools/assumptions.py`) has what `Print Assumptions` lists for each theorem.
  Most are closed under the global context. The theorems about real numbers (in `Props/Table.v`, `CircularMix.v`,
  `Audio.v`, `MathFloat.v`, `MathTables.v` and the other float files) list only axioms of Coq's standard library:
  `ClassicalDedekindReals.sig_forall_dec`, `ClassicalDedekindReals.sig_not_dec`, `Classical_Prop.classic`,
  `FunctionalExtensionality.functional_extensionality_dep`. No axiom, parameter, functor, module type, admitted proof or kernel switch is ours.
* Libraries: the standard library and Flocq (for the float bridge; Flocq adds no axiom).

### Modelled

Every header of `/repo/util` except the ones below, each in the model file that cites it. In brief: both lock-free
FIFOs (sequential, interleaved and with C++ memory orders), circular buffers and stack, fixed vector, maps, strings,
both pools, the compact binary parser/writer/serializer, wear levelling, number printing and version parsing, integer and float
math with its tables, buttons, encoders, polling, parameters, filters, oscillators, LED, colours, geometry, calibrators,
interpolation, allocators, MemTest, byte block, zip and partition, callables, stream buffers, audio frames, soft_neon.

### Not modelled

* `term_codes.hh` (string constants), `base_concepts.hh`, `overloaded.hh`, `lut.hh` (type-level only or empty): no run-time behaviour.
* `cortex_math.hh` beyond its saturation and the portable equivalents (inline assembly on the target).
* Template constraints and overload resolution, except where a claim says which instantiation compiles (C70).
* Compiler behaviour: fused multiply-add contraction, `-ffast-math`, data layout other than little endian with bit-fields from the low end.
* `aligned_alloc`, `std::sort`, `strtol` and `memcpy` themselves: replaced by their contracts, stated in the models.
* Exceptions and the lifetime of non-trivial element types, except in Callable (C79) and for what containers keep of removed elements (C157).
* Memory orders other than in the FIFO, the thread-safe pool and the flag of FilteredInterpArray (C164): the other concurrent claims are over sequentially consistent interleavings.
