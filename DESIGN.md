# Formal model of rust-shogi-crates/shogi_core in Rocq (Coq 8.16.1)

## What is modelled

The project is a state-machine core: small integer-encoded types, two-word bitboards, a position with redundant state, text
output, a C interface (84 exported functions, a generated header, a C test program) and, in `shogi_core_c`, a small C runtime
with a lock-free bump allocator. Everything is modelled function by function as total, computable Gallina functions, each with a
comment giving file and lines.

* **Machine layer** (`Machine.v`). A function that can panic or be undefined in Rust returns `res A` = `Ret a | Panic | UB`.
  `Panic` covers overflow checks, out-of-range shifts, slice indexing and `debug_assert!`. `UB` covers `unreachable_unchecked`,
  `get_unchecked` out of range, `transmute` to an invalid enum value, `NonZero::new_unchecked(0)`, non-ASCII bytes given to
  `write_ascii_byte`, and access to memory that is not there. The parameter `P : profile` selects checked or
  wrapping arithmetic (`overflow_checks`) and switches `debug_assert!` (`debug_assertions`): `Debug` has both, `Release` neither,
  `Checked` and `Asserting` one of them. Theorems hold for all four unless they say otherwise. So "the call
  returns `Ret`" is itself the absence of panic and UB, in every build.
* **Integers** are `N` (unsigned) and `Z` (i8); the width is written into each operation.
* **Wrapper types** (`Square(NonZeroU8)`, ...) are one-field records with a validity predicate, the documented range of the
  representation. Arrays are lists with an invariant on the length.
* **`&mut self` methods** return the new value beside the result. The early returns (`?`) of `make_move` are modelled in a state
  monad that keeps the mutations made before the return, so "unchanged on failure" is a theorem and not an artefact.
* **`core::fmt::Write`** is an arbitrary state machine `W -> bytes -> W * bool`. All writers are polymorphic in it, so sinks that
  fail at any point are covered.
* **`LegalityChecker`** implementations are records of arbitrary functions (`MLegality`), with any type of state behind `&self` and with provided methods of their own in `MChecker`.
* **Concurrency** (allocator): an interleaving semantics of the load / `compare_exchange_weak` loop of `fetch_update`, with any
  number of threads, any schedule and spurious failures.
* **No-std heap** (`MCArena.v`): allocation and deallocation by any number of threads; then C programs with the bundled allocator behind
  `Box` and `Vec`, where positions and lists of moves live in the arena and every growth of a list is an allocation, a copy and a
  deallocation.
* **Build script** (`MBuild.v`): the generated constants, and the text of the two generated files.
* **C interface as data** (`MCAbi.v`): the prototypes and types of the header, the `extern "C"` functions with their types, and the
  layout rules of both compilers.
* **C values** (`MCCall.v`): the 48 exported functions on squares, pieces, moves, hands and bitboards at the level of C arguments
  (integers, words, pointers), with decoding that is undefined behaviour for integers that are no value of the Rust type.
* **C programs** (`MCClient.v`, `MCHeap.v`): positions as bytes in the memory of a C program, the exported functions on pointers,
  programs as arbitrary sequences of calls, copies and stores; then `Position` behind an opaque pointer to the heap, and
  `c_tests/position.c` itself.
* **Whole C programs** (`MCProgram.v`): a small C with variables, branches and loops over all of the above, where results of calls are
  arguments of others; run with fuel, so that statements hold at every moment of an endless run too.
* **C programs with threads** (`MCThreads.v`): any number of threads, each running such a program on its own variables and pointers in
  one memory with one allocator, one call or step of control at a time in any order. That whole calls take turns is an idealisation;
  C71 proves that each step reads and writes only bytes of its own thread, so nothing finer could be observed.
  `MCNoThreads.v` has threads with the bundled allocator instead, where a thread that runs out of memory stays in the endless loop of
  `error_handler` and the others run on. `MCNoFine.v` interrupts these threads
  inside their calls, before each exchange of the allocator and after the last one, and C83 proves that this comes to the same.
  `MCWeak.v` lets loads of the counter read old values, and C84 proves that this makes no difference either, except to the number of rounds.
* **Bitboards as iterators** (`MIter.v`): the provided methods and adaptors of `core::iter::Iterator` on top of `Bitboard::next` (C85).
* **The crates as packages** (`MPackage.v`): features, `cfg`s, trait implementations, methods of the crate's traits and what refers to what, as
  tables transcribed from the sources by hand (C86). Functions that are always compiled and use only what is always compiled are left out.
* **The standard maps** (`MCollections.v`): `HashMap` as a table of buckets with any hasher and growth, `BTreeMap` as a search tree of any
  shape, as clients of `==`, `Hash` and `Ord` (C87).
* **Searching clients** (`SpecSearch.v`, `SpecInPlace.v`): counting games and solving for forced wins to any depth, with clones of the position or
  by making moves and taking them back (C88, C89).
* **Tests** (`MTests.v`): the unit tests and documentation examples of the crate, transcribed. They pass in the model (C65), which
  checks the model against behaviour its authors have tested.

## Files

| files | content |
|-------|---------|
| `Machine.v`, `M*.v` | the model; no proofs |
| `Spec*.v` | the specification, independent of the model's helpers: file/rank coordinates, (kind, colour) pieces, abstract positions and moves, an SFEN/USI reader, setting up by edits, keys of orders and hashes, the interface as a typed table, C layout, C programs, heap clients |
| `L*.v` | lemmas |
| `T*.v` | proofs of the properties (`cNN_..._pf`) |
| `Prop_*.v` | the property theorems and nothing else; beneath each one `Print Assumptions` and concrete `Example`s which meet its hypotheses |
| `Sample.v`, `LSample*.v` | the concrete positions, games and memories used by the examples |

`../seeded/LOG.jsonl` records the wrong programs the theorems were tested against, one per line.
A theorem is listed as failed when its proof, or one it rests on, no longer goes through. This does not show that its statement has become
false. Proofs were cut off after a time limit, on a machine busy with other attempts. `proofs_timed_out` names those cut off: theorems
resting on these alone may be listed without need. Attempts that do not type-check, are equivalent, or were left undetermined list no
theorem and say so in `note`. The attempts `au…` were made by a script, which stopped at the first file with a failing theorem.

## Properties: how they are proved

"refuted" means that the property as written is false of the code; then there is a witness (`..._refuted`) and the exact law or
the strongest true part (`..._partial`).

| id | model | proof |
|----|-------|-------|
| C01-C04 | `MSquare` with u8/i8 wrap | arithmetic and complete sweeps over the 81 squares |
| C05-C06 | `MPieceKind`, `MPiece` | case analysis, sweep over the 28 pieces |
| C07 | conversions in each module | case analysis; sweep over all representations |
| C08-C09 | `MMove` bit packing | bit lemmas on disjoint `lor` |
| C10-C11 | `MHand` (8-byte array) | array lemmas; induction over operation lists |
| C12-C13 | `MBitboard`, two u64 words | bit extensionality; cardinality by counting |
| C14 | `trailing_zeros`, `x & (x-1)` | lowest-bit lemma by induction on `positive`; induction on cardinality |
| C15-C16 | reverse_bits, shifts with masks | bitwise; masks by sweep over 10 deltas and 64 bits |
| C17 | `shift_right` | refuted (bit 63 is not masked for deltas 0 and 1); exact characterisation of when it is right |
| C18-C20 | file patterns, swap_bytes, u128 | bitwise |
| C21 | all mutators of positions | invariant by induction over histories |
| C22-C26 | `make_move` in the state/early-return monad | refinement to abstract positions; induction over move lists |
| C27-C28 | same | conservation (counting over the board) and king invariants |
| C29 | same | refuted (`piece_set(sq, None)` leaves `king_position` stale); exact law: the last king put |
| C30 | `startpos`, constant bitboards | computed, checked on all squares |
| C31-C32 | `Position`, `Game` | induction over histories |
| C33 | `to_sfen` over arbitrary sinks | printer = reference printer; reader(printer) = identity |
| C34 | `to_sfen_c` into a byte memory | conservation and a length inequality: at most 137 bytes in play |
| C35 | same | refuted; the true bound is 236 bytes with the NUL, and it is attained |
| C36-C39 | same, writers | induction over the written chunks; USI reader |
| C40 | 266 interface functions as one typed table (`SpecApi`), programs over it | refuted in builds with debug assertions (`pop` after `shift_right`, see C17); full for the other builds and for UB in all; such a `pop` is the only panic |
| C41-C43 | `MOrdHash` | lexicographic combinators; C42 refuted for positions and games (`king_square` takes part in `==`, not in `cmp`) |
| C44 | `PartialEq` | redundant fields are functions of the others |
| C45 | `MLegality` | case analysis over arbitrary implementations |
| C46 | `MCRuntime` small-step threads | invariant over all schedules |
| C47 | same | refuted (the arena has alignment 1); a block is aligned iff the arena is |
| C48 | byte memory, loops | induction on n |
| C49 | `MBuild` | sweep over the generated lists; the generated text is parsed back |
| C50 | mirror of abstract positions | refinement and symmetry of the abstract step |
| C51-C53 | edits, SFEN, moves | every setting reached by an edit list; range of SFEN; take-back function inverts each accepted move |
| C54-C55 | `MOrdHash` | keys in dictionary order; hash streams are injective on keys |
| C56-C57 | `MCAbi` | sweep over the 84 prototypes; layout for alignments 1, 2, 4, 8 of `uint64_t`. C57 refuted: two prototypes return an incomplete type |
| C58-C59 | `MCClient` | load inverts store under any padding and byte order; simulation of C programs by Rust values |
| C60-C61 | `MCHeap` | simulation with a table of live objects; symbolic run of `c_tests/position.c` for every allocator which meets its contract |
| C62 | `MCCall` | case analysis over the 48 functions, sweeps over the finite types, lemmas for words and hands; induction over programs |
| C63 | `MCArena` | deallocation is a no-op, so the serial history of C46 bounds everything ever handed out; a decreasing measure for waiting |
| C64 | `MCArena` | the simulation of C60 with a frame that ignores the vectors; the allocator run serially; sums of the sizes asked for |
| C65 | `MTests` | computation; the two long loops by C03 and C39 |
| C66 | `MCProgram` | C60 and C62 step by step, with frame lemmas between heap, positions and value objects; induction on the fuel |
| C67 | any permutation of squares | refinement; the abstract step commutes with every permutation |
| C68 | pairs of calls | extensionality of well-formed positions (equal observations give equal values) |
| C69 | counts of bitboards | sums over the 81 squares exchanged with sums over kinds; conservation (C27) |
| C70 | `SpecCheck` (types, ranges, ownership) | soundness of the checker by induction on the program and the fuel; interface types by C62, safety of the meaning by C66 |
| C71 | `MCThreads` | invariant of C66 for every thread, frame lemma for changes of the memory outside a thread's own bytes; small steps related to whole runs by induction on fuel and steps |
| C72 | `SpecRules` (the rules of shogi, an implementor of `LegalityChecker`) | the rules depend on observations only (extensionality); legality implies sense as the king is not in check; induction on games; refinement of C22/C23; witnesses by evaluation |
| C73 | `SpecAttack` (a client on whole bitboards) | shifts as sets of steps (C16, C17 with the mask); flood fill along rays by induction on its length; bitboards of positions by C21; compared with `SpecRules` |
| C74 | `SpecRepeat` (the rule of repetition, an implementor that replays the record) | the rule depends on observations only; induction on the record with C31, C45 and C72; finitely many settings and the pigeonhole principle; injectivity of SFEN (C33) |
| C75 | `SpecContract` (the documented contract of `LegalityChecker`, a move generator, implementors) | C45 for the provided methods; the iterator of bitboards (C14) and lists without duplicates; one lemma for all implementors that go by a table; C72, C74 |
| C76 | `SpecDebug` (the texts, written down without builders) | chunks fed through the indenting adapter; structural induction on the tree a value presents; texts without blanks can be read back in one way |
| C77 | `SpecSymmetry` (the other player, the reflection, answers that correspond) | one notion of symmetry of squares, players and directions with two instances; each rule of C72 to C74 commutes with it, one direction by induction and the other because a symmetry undoes itself |
| C78 | `SpecRecord` (a client that writes records, a client that reads any text) | C33, C37 and C52 for the texts, C51 for setting up, C31 for replaying; cutting and joining at blanks; an accepted drop is of the side to move |
| C79 | `SpecUnsafe` (what each bit of two words stands for, walking through all of them) | `pop` for any two words from the lowest set bit; the walk cut at bits 63, 64 and 82; bits of shifted and swapped words |
| C80 | the four profiles of `Machine`, `SpecApi` programs, the C programs of C60, C66 and C71 | one relation (panics or does the same) carried through every function of the model; for programs that keep the conditions the specifications of all builds agree (C49, C50, C66, C71) |
| C81 | `SpecChecker` (sessions of calls, an implementor that writes down the calls made on it, caches) | induction on the session with the refinement of C22/C23; a simulation with the state as invariant; the fickle and the restarting implementor as witnesses |
| C82 | `SpecNoThreads` (threads over abstract positions and one number for what is left of the arena) | the invariant of C64 for every thread with its own picture of the rest of the memory; the picture is adjusted when another thread moves; what a hanging call leaves behind stays within its thread; a potential argument for the sufficient amount |
| C83 | `SpecNoFine` (when a call takes effect, what a thread holds in the middle of one) over `SpecNoThreads` | every step of an interrupted thread is no step or one whole call of `SpecNoThreads`; the invariant of C82 with a phase per thread and the blocks handed out but not used; a measure for progress |
| C84 | `SpecWeak` (a log of the values of the counter; memory with the bytes of one thread only) | the invariant of C83 needs only that the value read is not below the newest; what is held comes from below the counter, which never goes up; the step lemma of C83 for the thread alone in memory |
| C85 | `SpecIter` (the list of the squares, a loop over a list with break, dictionary order, `delivers`) | `next` steps through the list of C14; a loop over an iterator that steps through a list is the loop over the list; each adaptor steps through the list that belongs to it |
| C86 | `SpecPackage` (available, compiles, the methods of an `impl`, which type should have which trait) | the 32 choices of features by computation; that more features take nothing away from `cfg`s without `not`; a list of methods against a list of names |
| C87 | `SpecCollections` (what a map holds, told from the calls alone) | entries right after the calls, in any order (permutation), for keys taken for one another by any equivalence; buckets and search trees keep them right; `==` is identity, `cmp` by C41, C42, C54; counts by C74 |
| C88 | `SpecSearch` (`can_win`: a move after which every reply leaves a win; legal games of a length) | one step: legal moves are accepted and lead to the position after the move (C72, C74, C75); sums in 64 bits by induction; the solver's quantifiers against those of `can_win` |
| C89 | `SpecInPlace` (`kings_known`, `with_last`) on top of `SpecSearch` | what C53 restores is restored whatever the last move is; the loops lend the position on; the answers of both programs are the same `find` and the same sum |

## Findings about the code

* `Bitboard::shift_right` can set the invalid bit 63 (C17); a later `pop` panics in a build with debug assertions and
  otherwise returns the `Square` with index 63, which is not in the set (C40).
* `king_position` is stale after a king is removed or overwritten by `piece_set` (C29); so `==` and `cmp` disagree on positions (C42).
* `ply` wraps at 65536 (C26). `Hand::added` wraps at 256 (C11).
* Deprecated mutable access to the position inside `Position` breaks replay of the history (C31).
* The documentation's 139 bytes for `to_sfen_c` do not suffice for edited positions; 236 do (C35).
* The bundled arena has alignment 1, and `alloc` returns pointers as aligned as the arena is (C47).
* The bundled allocator never uses memory twice (C63), so a no-std program can create only 128 KiB / size `Position`s in its life even if it
  destructs each one, and one `Position` can hold at most 8192 moves (16384 if the compiler packs a `Move` into 3 bytes). Beyond
  that the program hangs in `alloc_error_handler` (C64).
* `Square_from_u8` and `Square_shift` are declared with the incomplete result `struct Option_Square` in the header (C57).
* `memcmp` does not decide equality of positions in C because of padding (C58).
* The README promises order and hash functions for every exported type; `OptionPieceKind` has none. The C interface has no
  constructor for `Game` and `PartialGame`. The order of `CompactMove` differs from the order of `Move`. The header declares the
  functions which need an allocator without `DEFINE_ALLOC` too.
* On two bitboards `a.cmp(b)` is `Iterator::cmp`, which differs from `Ord::cmp` (C85).
* Features are not additive: no implementation of `LegalityChecker` compiles both with `alloc` and without it (C86).
* `OptionPieceKind` implements none of the traits that README.md promises for every type; `Hand` and some `Option` types implement `Default`
  although README.md says they do not; seven unsafe items have no `_unchecked` in their names (C86).
* A `BTreeMap` takes positions for one another that differ in their king positions only; a `HashMap` does not (C87, from C42).

## Assumptions of the model

* Rust semantics as described above; `usize` has an arbitrary width parameter in the runtime (`U`) and is otherwise not used
  beyond array indexing.
* The alignment of `uint64_t` in C is 1, 2, 4 or 8; both byte orders; padding bytes are arbitrary and may change at every store.
* The layout of the opaque `Position` is arbitrary (offsets of its two `PartialPosition` fields within a block of any size). The
  elements of its move list are kept beside the memory in C60-C61, where failure to allocate them is not modelled. In C64 they are in
  memory, with any encoding of a `Move` in a fixed number of bytes of alignment 1 and any growth of `Vec`; only the limit in
  `c64_moves` assumes that `Vec` doubles its capacity starting from 4. `GlobalAlloc::realloc` is core's default.
* The allocator behind `Box` is arbitrary with the contract `fresh_blocks` (blocks do not overlap live objects). When it fails, the
  call does not return, as with `handle_alloc_error`. C60, C66, C70 and C71 say when this happens: exactly if the run of the program
  comes to a constructor with the allocator refusing, given the memory as it is then. A statement that assumed an allocator which
  never refuses would say nothing: memory is finite, so no such allocator meets the contract in every memory.
* Pointers in C programs carry the object they came from; using a destroyed object is misuse even if a new one has its address.

## Not modelled

flags of `Debug` formats other than `#` (C76), `Clone` derives other than plain copying, out-of-memory of `Vec` and `String` outside C64, `panic_handler` and
`alloc_error_handler` (infinite loops), compilers. Weakly ordered memory is modelled for the atomic of the allocator (C84); other bytes are
never used by two threads (C71, C84), so that the order of writes to them cannot be seen.

## Trusted base

* Coq 8.16.1's kernel, including `vm_compute`.
* The reading of the sources recorded in the comments of `M*.v`.
* The statements in `Spec*.v` and `Prop_*.v`.

No axioms: `Print Assumptions` answers "Closed under the global context" for every theorem listed below. (`vcheck` lists library
axioms `Coq.ssr.ssrunder.*`; they come with loading `ssreflect`-based parts of the standard library and no theorem depends on them.)

### Theorems (377), all closed under the global context

* C01: `c01_square_new`, `c01_square_unique_coordinates`
* C02: `c02_flip_rotates`, `c02_new_relative`, `c02_relative_coordinates`, `c02_c_new_relative`
* C03: `c03_shift_translates`
* C04: `c04_from_u8_index`, `c04_index_from_u8`, `c04_all_lists_every_square`, `c04_option_square_round_trip`, `c04_c_interface`
* C05: `c05_new_to_parts`, `c05_to_parts_new`, `c05_as_u8`, `c05_as_u8_injective`, `c05_all_pieces`, `c05_array_index`, `c05_option_array_index`, `c05_c_new`
* C06: `c06_kind_promotion`, `c06_promotable_kinds`, `c06_piece_promotion`, `c06_c_kind`, `c06_c_piece`
* C07: `c07_option_piece_round_trip`, `c07_option_piece_kind`, `c07_option_compact_move_round_trip`, `c07_option_game_resolution_round_trip`, `c07_result_illegal_move_kind`, `c07_option_square_round_trip`
* C08: `c08_move_round_trip`, `c08_compact_bijection`, `c08_move_eq`
* C09: `c09_accessors_agree`, `c09_move_accessors`
* C10: `c10_new_and_count`, `c10_added`, `c10_removed`, `c10_hand_kinds`, `c10_eq_iff_same_counts`
* C11: `c11_removed_undoes_added`, `c11_added_undoes_removed`, `c11_histories`, `c11_reachable_hands`
* C12: `c12_empty_single`, `c12_set_algebra`, `c12_results_valid`, `c12_square_assign`, `c12_built_iff_valid`
* C13: `c13_eq_is_set_equality`, `c13_count_is_cardinality`, `c13_count_total`
* C14: `c14_pop_empty`, `c14_pop_least_member`, `c14_iteration`
* C15: `c15_flip`
* C16: `c16_shift_down`, `c16_shift_up`, `c16_shift_left`
* C17: `c17_shift_right_partial`, `c17_shift_right_refuted`
* C18: `c18_from_file`, `c18_get_file`, `c18_file_round_trip`, `c18_files_determine_board`
* C19: `c19_swap_involution`, `c19_swap_commutes`, `c19_swap_reverses_bytes`
* C20: `c20_u128_round_trip`, `c20_swapped_u128_round_trip`, `c20_u128_bits`
* C21: `c21_history`, `c21_observed`, `c21_bitboards`, `c21_other_observers`
* C22: `c22_accepts`
* C23: `c23_effect`
* C24: `c24_partial_position`, `c24_position`, `c24_legality_checker`
* C25: `c25_compact`
* C26: `c26_moves`, `c26_ply_wraps_in_play`
* C27: `c27_conserved`, `c27_no_overflow`
* C28: `c28_kings`, `c28_no_king_capture`
* C29: `c29_king_position_partial`, `c29_king_position_refuted`, `c29_last_king_put`
* C30: `c30_startpos`, `c30_empty`
* C31: `c31_replay`, `c31_created`, `c31_observers`, `c31_deprecated_edit_breaks_replay`, `c31_deprecated_edits`
* C32: `c32_resolution`, `c32_default`, `c32_c_resolution`
* C33: `c33_text`, `c33_reads_back`, `c33_same_text`
* C34: `c34_in_play`, `c34_exact_maximum`
* C35: `c35_139_bytes_refuted`, `c35_at_most_236_partial`, `c35_full_set_partial`
* C36: `c36_c_string`, `c36_stores`
* C37: `c37_values`, `c37_moves`, `c37_compact`
* C38: `c38_usi`, `c38_sfen`
* C39: `c39_decimal`, `c39_in_sfen`
* C40: `c40_calls_partial`, `c40_programs_partial`, `c40_release`, `c40_no_ub`, `c40_debug_panics`, `c40_pop_refuted`, `c40_writers`
* C41: `c41_values`, `c41_positions`
* C42: `c42_values`, `c42_positions_partial`, `c42_in_play_partial`, `c42_positions_refuted`
* C43: `c43_values`, `c43_positions`
* C44: `c44_played`, `c44_reachable`
* C45: `c45_finished`, `c45_in_progress`, `c45_panics`, `c45_make_move_answer`, `c45_make_move`, `c45_broken_promise`, `c45_game`
* C46: `c46_serial`, `c46_inside`, `c46_disjoint`, `c46_null`, `c46_answers`, `c46_finishes_alone`
* C47: `c47_aligned_iff_partial`, `c47_aligned_arena_partial`, `c47_aligned_refuted`
* C48: `c48_memcpy`, `c48_memset`, `c48_bzero`, `c48_memcmp`, `c48_memcmp_stops`
* C49: `c49_pieces`, `c49_squares`, `c49_nothing_else`, `c49_model`
* C50: `c50_move`, `c50_history`
* C51: `c51_set_up`, `c51_every_setting`, `c51_ply_zero`
* C52: `c52_every_text`, `c52_range`
* C53: `c53_take_back`, `c53_in_play`, `c53_determined`
* C54: `c54_values`, `c54_options`, `c54_positions`
* C55: `c55_values`, `c55_options`, `c55_positions`, `c55_same`
* C56: `c56_names`, `c56_constants`, `c56_macros`, `c56_struct`
* C57: `c57_calls_partial`, `c57_calls_refuted`
* C58: `c58_store`, `c58_copy`, `c58_load_defined`, `c58_memcmp`, `c58_memcmp_padding`
* C59: `c59_client`
* C60: `c60_programs`, `c60_misuse`, `c60_out_of_memory`, `c60_no_leak`
* C61: `c61_main`
* C62: `c62_calls`, `c62_contract`, `c62_impossible`, `c62_unchecked`, `c62_misaligned`, `c62_programs`, `c62_covers`
* C63: `c63_never_reused`, `c63_stays_full`, `c63_answered`, `c63_same_size`
* C64: `c64_programs`, `c64_misuse`, `c64_misaligned`, `c64_positions`, `c64_moves`, `c64_given_back`
* C65: `c65_unit_tests`, `c65_doc_tests`
* C66: `c66_programs`, `c66_misuse`, `c66_out_of_memory`, `c66_no_leak`, `c66_covers`
* C67: `c67_history`, `c67_from_empty`, `c67_left_right`
* C68: `c68_commute`, `c68_overwrite`, `c68_move`, `c68_kings`
* C69: `c69_counts`, `c69_play`
* C70: `c70_accepted`, `c70_types`, `c70_no_leak`, `c70_constants`
* C71: `c71_threads`, `c71_misuse`, `c71_out_of_memory`, `c71_schedules`, `c71_writes`, `c71_reads`, `c71_no_leak`, `c71_small_steps`, `c71_accepted`, `c71_accepted_clean`, `c71_single`
* C72: `c72_accepted`, `c72_legal_game`, `c72_checker`, `c72_status`, `c72_honest`, `c72_checked_game`, `c72_candidates`, `c72_not_checked`
* C73: `c73_translate`, `c73_attacks`, `c73_check`, `c73_destinations`, `c73_pawn_drops`, `c73_flip`, `c73_set_laws`, `c73_add_up`, `c73_careless`
* C74: `c74_status`, `c74_checked_game`, `c74_rule`, `c74_games_end`, `c74_equality`, `c74_text`
* C75: `c75_provided`, `c75_generate`, `c75_rules`, `c75_not_determined`
* C76: `c76_values`, `c76_structures`, `c76_tells_values`, `c76_tells_structures`, `c76_formats`
* C77: `c77_turned_answers`, `c77_turned_boards`, `c77_turned_attacks`, `c77_turned_game`, `c77_reflected_answers`, `c77_reflected_boards`, `c77_reflected_game`
* C78: `c78_round_trip`, `c78_startpos`, `c78_reader`, `c78_meaning`, `c78_accepts`, `c78_last_move_lost`
* C79: `c79_pop`, `c79_walk`, `c79_defined`, `c79_from_u128`, `c79_shift_outside`, `c79_shift_down`, `c79_from_file`, `c79_file_outside`, `c79_get_file`, `c79_swapped`, `c79_numbers`
* C80: `c80_calls`, `c80_programs`, `c80_overflow_checks`, `c80_all_builds`, `c80_difference`, `c80_reachable`, `c80_writers`, `c80_checker`, `c80_c_anything`, `c80_c_programs`, `c80_c_threads`, `c80_no_std`, `c80_runtime`
* C81: `c81_status_first`, `c81_make_move_answer`, `c81_queries`, `c81_broken_promise`, `c81_own_methods`, `c81_session`, `c81_calls`, `c81_cache`, `c81_stateless`, `c81_two_questions_refuted`, `c81_own_make_move_refuted`
* C82: `c82_threads`, `c82_alone`, `c82_last_position`, `c82_enough`, `c82_order_refuted`
* C83: `c83_atomic`, `c83_calls`, `c83_alone`, `c83_enough`, `c83_progress`, `c83_order_refuted`
* C84: `c84_atomic`, `c84_private`, `c84_footprint`, `c84_newest`, `c84_progress`, `c84_three_refuted`
* C85: `c85_loops`, `c85_whole`, `c85_searches`, `c85_nth`, `c85_compare`, `c85_order_refuted`, `c85_rebuild`, `c85_adaptors`
* C86: `c86_whole`, `c86_more_features`, `c86_checker`, `c86_checker_breaks`, `c86_more_features_refuted`, `c86_traits`, `c86_items`, `c86_every_type_refuted`, `c86_default_refuted`, `c86_unsafe_names`, `c86_default_features`, `c86_c_library`
* C87: `c87_hash_values`, `c87_hash_positions`, `c87_tree_values`, `c87_tree_played`, `c87_tree_positions`, `c87_tree_positions_refuted`, `c87_tally`, `c87_positions_once`, `c87_texts`
* C88: `c88_checkers`, `c88_perft`, `c88_solve`, `c88_duel`, `c88_sound`
* C89: `c89_taken_back`, `c89_solve`, `c89_perft`, `c89_in_play`
