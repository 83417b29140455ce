# Formal model of zpl (C) in Rocq 8.16.1

## Approach

* The model is a set of executable Gallina functions, one per C function, each
  carrying a comment with the file and lines in `/repo` that it models. Where it
  simplifies, the comment says so.
* Integers are `Z` with explicit wrap-around (`u32`, `u64`, `i32`, ...) where the
  C type is unsigned or converted; signed overflow is undefined (`None`).
* Memory is a partial map or a list of cells with an explicit end. An access
  outside it, a failed assertion, a NULL dereference, a use after free or any
  other undefined behaviour makes the model return `None`, so a theorem
  "`f ... = Some r`" includes memory safety.
* Loops are structural recursion, or recursion on fuel whose exhaustion is
  `None`; positive theorems show that the given fuel suffices. "Does not end" is
  stated as `None` for every fuel.
* Threads are small-step functions over a shared state; theorems quantify over
  all schedules (lists of moves) and so over all reachable states.
* A property that is false of the code is stated as what does hold, under its
  exact guard, plus theorems `..._refuted` that exhibit the failure, for all
  inputs of a described class where possible, for one witness otherwise.

### Files (`rocq/theories/`)

| Name | Content |
|---|---|
| `Foo.v` | model of a part of the code |
| `FooSpec.v` | the independent specification: short definitions that do not use the model's helpers |
| `FooProofs*.v` | lemmas |
| `PropFoo.v` | the final theorems `Cnn_...`, examples that meet their hypotheses, `Print Assumptions` |

`Base.v` has the integer conversions and finite sweeps, `Witness.v` the helper for
showing that a run over a concrete memory gives a stated result.
`tools/manifest.py` writes `MANIFEST.json` from the theorem names in `Prop*.v`;
`tools/props.py` edits `properties.jsonl`. `seeded/LOG.jsonl` records the edits of
the model against which the theorems were tested.

## Plan per property

| Property | Model | Proof |
|---|---|---|
| C01-C03, C09, C64 | `Bits.v`: bit functions over Z | bit-level lemmas (`Z.testbit`), arithmetic, byte decompositions |
| C04-C08 | `Mem.v`: byte memory with accessible range; little-endian word access | loop invariants over fuel/structural recursion |
| C10-C15, C68 | `Alloc.v`: allocator states, histories as lists of operations | invariants by induction over histories; witnesses by computation |
| C16, C17 | `Array.v`: header and cell list | refinement to `list`, growth invariant |
| C18, C19 | `Ring.v`: cell list with head and tail | refinement to a bounded queue |
| C20-C22 | `Hashtable.v`: two index arrays as in the code | representation invariant (acyclic chains covering the entries), refinement to finite maps |
| C23 | `DList.v`: store of nodes with prev/next | well-formedness; witness |
| C24-C28, C69 | `Sort.v`: in-place algorithms with checked accesses | permutation/sortedness invariants, stack-depth potential argument |
| C29-C33, C70 | `Hash.v`: folds over bytes with the literal tables | linearity of CRC, a finite table check lifted by `forallb_forall`; invariants |
| C34-C35 | `Base64.v`: encoder/decoder with checked indices | induction in steps of three/four; witness |
| C36-C39, C71, C72 | `Utf8.v`: decoder with the literal tables | range case analysis; induction over rune lists |
| C40-C41, C74 | `Num.v`: digit loops over char lists | positional notation lemmas |
| C42-C44, C73 | `CStr.v`: C strings as byte lists with explicit NUL | induction |
| C45, C75 | `StrLib.v`: length-prefixed strings | refinement to byte lists over histories |
| C46-C47, C76 | `Random.v`: wrap-around arithmetic | modular arithmetic; witness |
| C48 | `FStream.v`: stream record | refinement |
| C49, C50, C78 | `Tar.v`: archive as byte list | round trip by induction |
| C51-C54 | `Node.v`, `Uri.v`, `Csv.v`, `Json.v`: parsers/printers as fuel recursion | round trips by induction on the abstract value; compositional lemmas for each syntactic part |
| C55, C77 | `Print.v`: the printf engine | exact output for each conversion; overflow characterised |
| C56-C57 | `Regex.v`: compiler to byte codes and matcher | a code for each pattern, simulation of the matcher against a relational semantics |
| C58 | `Adt.v`: node arrays in a block store, dangling pointers undefined | refinement to trees |
| C59, C60, C79, C80 | `Jobs.v`: dispatcher and workers interleaved | inductive invariants over reachable states; explicit schedules |
| C61 | `Sync.v`: threads at each lock operation | inductive invariants |
| C62 | `SpinLock.v` | schedules |
| C63 | `Vm.v`: page maps | interval arithmetic; witness |
| C65 | `Half.v`: bit patterns | exact value semantics, rounding lemma |
| C66, C67, C82 | `Vec.v`: entries in any field | `ring`/`field` |
| C81, C83-C85 | `Geom.v`: exact rationals | order arguments |
| C86, C87 | `Float.v`, `Print.v`: binary64 by the standard library's `SpecFloat` | operations as roundings of reals through Flocq; error bounds by induction over the digits |
| C88 | `Node.v`: zpl_adt_parse_number, zpl_adt_print_number | the phases of the scan; round trips through the formats of C55/C87 |
| C89 | `Query.v`: zpl_adt_query on the trees of `Node.v` | induction over the path; equivalence with a relational walk |
| C90 | `Opts.v`: options as a table, pointers to entries carry the number of moves of the table | relational meaning of argument lists; refinement both ways, so the model is defined exactly where the relation is |
| C91 | `Path.v`: the file system as a tree of names, the directory streams still to be opened as a number | what is at a path, relationally; invariant for the loop over the slashes, induction over the tree |
| C92 | `Posix.v`: files as byte lists by name, an open file with position and modes; system calls as functions, with the room on the device as a parameter | contents described byte by byte; direct proofs |
| C93 | `Thread.v`: transition system of an owner and the threads started with one zpl_thread | invariant over all interleavings; a measure for termination |
| C94 | `Clock.v`: doubles as in `Float.v` | error bounds and monotony of rounding (Flocq) |
| C95-C97 | `Rot.v` on top of `Vec.v`: real numbers, with the real sine, cosine, square root and arc functions | `nsatz`/`field`, addition theorems |
| C98, C99 | `FloatFun.v`: doubles as in `Float.v`; the cast to zpl_i64 is undefined where it does not fit | grids of doubles, monotony of rounding (Flocq) |
| C100 | `Single.v`: singles by the operations of `SpecFloat` with 24 bits, and their 32 bits | the first guess as a cubic of the mantissa in three cases, one Newton step as 1 - (1-q)^2(4-q)/4, relative errors of the roundings (Flocq) |
| C101, C102 | `SingleFun.v`: singles as in `Single.v`; the cast to int is undefined where it does not fit | grids of singles, ties to even; monotony of polynomial times exp(-x), errors of the roundings from inside to outside |
| C103 | `Angle.v`: rational numbers as in `Geom.v`; singles as in `SingleFun.v` for the counterexample | case analysis on the fraction of a turn, using the theorem about `zpl_mod` (C81) |
| C104 | `Plane.v`: real numbers; NaN is `None` | inequalities for lists of coordinates by induction; polynomial identities; derivatives |
| C105, C106 | `Box.v`: rational numbers; memory as objects of floats | linear arithmetic by cases; lists |
| C107 | `HeapStats.v`: addresses are integers; of the contents of memory only the records before blocks; the answers of aligned_alloc(3) are arguments | invariant (`HeapStatsProofs.v`) over all histories: blocks in use one to one with records and with the C library's blocks |
| C108, C109 | `Env.v`: the environment as a list of names and values, a command as its output; strings as in `StrLib.v` | induction over changes and over the output |
| C110, C111 | `FileLife.v`: sets of open descriptors and of blocks in use; the answers of the kernel are arguments | invariant over histories: what is in use is what was, and what the open files hold, up to order; bits |
| C112 | `FmtStr.v`: `Print.v`'s snprintf on a cleared, a given or a static buffer, then `StrLib.v` | C87 for a buffer ending in a NUL, which every call keeps; histories by induction |
| C113 | `WriteStr.v`: the printed pieces written to a stream of `FStream.v`, then `StrLib.v`'s make_length | C48 for a stream at its end; induction over the pieces; round trips of C51 to C53 |
| C114 | `TarDir.v`: the listing of `Path.v`, then `Tar.v` | C49 and C91 composed |
| C115 | `Nested.v` on `Alloc.v`; `NestedSpec.v`: trees of arenas and what their users do | invariant of C10 at every node, by induction over the place of the step |
| C116 | `Atomic.v`: instructions of the asm statements on x86-TSO memory with a log of the writes | invariant for every point of an operation, over all interleavings |
| C117 | `Lock.v`: threads calling mutex and semaphore; `LockSpec.v`: holders, units posted and taken, from the calls alone | invariant over all runs |
| C118 | `Rmdir.v`: mkdir, rmdir and the translation of errno on the trees of `Path.v`; `RmdirSpec.v`: what is at a path before and after | induction over the path |
| C119 | `FullName.v`: zpl_path_get_full_name over the memory and the allocators; `FullNameSpec.v`: text in memory | memmove's theorem (C05) for an arbitrary allocator |
| C120 | `Socket.v`: sockets over a kernel of descriptors; `SocketSpec.v`: what is allowed and the socket asked for | cases, and an invariant over all runs |
| C121 | `Select.v`: the times and sets given to select(2); statements in real numbers and lists | Sterbenz' lemma for the fraction, rounding of the product |
| C122 | `SoftMath.v`: the source's constants as rationals, evaluated over the reals; statements in terms of the real functions | Taylor polynomials with Lagrange's remainder; bounds of rational polynomials on an interval by a checker proved correct; the mean value theorem for zpl_arctan |

## Trusted base

* Coq's kernel (with its virtual machine for `vm_compute`). `coqchk` re-checks all
  compiled files.
* `Print Assumptions` answers "Closed under the global context" for every theorem
  `Cnn_...` up to C85 and from C89 to C93: no axiom is used, neither ours nor the standard library's.
* The theorems about doubles (C86-C88) speak of real numbers. They depend on the axioms of the
  standard library's `Reals`, as Flocq uses it:
  `ClassicalDedekindReals.sig_not_dec`, `ClassicalDedekindReals.sig_forall_dec`,
  `FunctionalExtensionality.functional_extensionality_dep`, `Classical_Prop.classic`
  (`C86_exact`, `C86_nearest`, `C86_error`, `C87_fits`, `C87_plain`,
  `C88_value`, `C88_real_written`, `C88_negative_fraction_refuted`: all four;
  `C86_nearest_refuted`, `C87_range_refuted`, `C88_negative_exponent_refuted`: `sig_forall_dec` and
  functional extensionality;
  `C86_exponent_capped`: `sig_forall_dec`, through the real number in the statement).
  `C86_total`, `C86_exponents_refuted` and the other theorems on C87 and C88 are closed.
* C94: `C94_gettime_refuted`, `C94_rel_refuted`, `C94_utc_refuted` and `C94_conversions` are closed, the others depend on all
  four axioms.
* The theorems C95-C97 speak of real numbers too. `C95_opposite`, `C96_lerp`, `C96_nearer`, `C97_ortho3d`,
  `C97_ortho3d_dx`, `C97_ortho2d` depend on `sig_forall_dec` and functional extensionality; `C95_angle`, `C95_axis`,
  `C95_axis_angle_of`, `C95_axis_unit_iff`, `C95_axis_refuted`, `C95_yaw`, `C95_roll_pitch`, `C95_roll_pitch_refuted`, `C95_roll_pitch_half_turn`,
  `C96_slerp`, `C96_slerp_same_refuted`, `C96_slerp_long_refuted`, `C96_squad`, `C96_squad_refuted`, `C96_squad_mid`,
  `C96_slerp_approx_lags`, `C96_slerp_approx_refuted` on all four axioms above; the others on these without `classic`.
* C98 and C99 depend on all four axioms above, except `C98_floor_undefined`, `C98_abs`, `C98_copy_sign` (on
  `sig_forall_dec` and functional extensionality) and `C98_not_finite` (on none).
* `C100_quake_rsqrt` depends on all four axioms above, `C100_bound_is_near` and `C100_subnormal_refuted` on the
  first three, `C100_negative` on `sig_forall_dec` and functional extensionality, the rest of C100 on none.
* C101 and C102 depend on all four axioms above, except `C102_range_refuted` (on the first three),
  `C101_floor_undefined`, `C101_abs` (on `sig_forall_dec` and functional extensionality), `C101_not_finite`,
  `C101_copy_sign`, `C102_zero` (on none).
* C104 depends on the first three axioms above (`C104_max`, `C104_side*`, `C104_cross`, `C104_reflect` and
  `C104_aspect_ratio` on `sig_forall_dec` and functional extensionality only), `C104_curve` on all four. C103, C105 and
  C106 depend on none.
* C107 to C111 and C113 to C120 depend on no axiom.
* `C121_time` and `C121_negative` depend on all four axioms above, `C121_undefined` on `sig_forall_dec` and functional
  extensionality, the rest of C121 on none.
* Of C122, `C122_turn_refuted`, `C122_exp_inverse` and the theorems on zpl_pow depend on `sig_forall_dec` and functional
  extensionality, the others on all four axioms above.
* C112: the theorems on formats depend on the axioms of C87_fits; C112_static_start, C112_alloc_str and
  C112_asprintf_out_of_memory_refuted on none.
* The seven constants of `Coq.ssr.ssrunder` that `coqchk` lists are in a library
  module that gets loaded through `lia`/`ring`/ssreflect imports; no theorem depends on them.
* Section contexts (`Context`) are discharged: e.g. the comparison function of
  `zpl_sort`, the fullness test of the hash table, the field of the matrices are
  quantified over in the theorem.
* The faithfulness of the model to the C text. The code has not been run.

## What is modelled

| Model | Code |
|---|---|
| `Bits.v` | `memory.h` (power of two, alignment, byte swaps), `misc.h` bit and endian helpers, epoch conversions of `time.h` |
| `Mem.v` | `memory.c`, `memory.h`: set, move, copy, swap, compare, chr, rchr |
| `Alloc.v` | `memory_custom.c/.h`: arena with snapshots, pool, stack, scratch, default resize; the heap statistics are in `HeapStats.v` |
| `Array.v`, `Ring.v`, `DList.v`, `Hashtable.v` | `array.h`, `buffer.h`, `ring.h`, `list.h`, `hashtable.h` |
| `Sort.v` | `sort.c/.h`: sort, radix sorts, binary search, shuffle, reverse, comparator factories |
| `Hash.v`, `Base64.v` | `hashing.c` |
| `CStr.v`, `Num.v`, `Utf8.v` | `string.h`, `string.c` except conversion to floating point |
| `Float.v` | `zpl_str_to_f64` of `string.c`; double arithmetic, rounding to nearest even, no excess precision, no contraction |
| `StrLib.v` | `stringlib.c/.h` |
| `Random.v` | `random.c` except seeding and `range_f64` |
| `FStream.v`, `Tar.v` | `file_stream.c`, the file API of `file.h` on it, `file_tar.c` |
| `Print.v` | `print.c` |
| `Node.v`, `Adt.v`, `Query.v` | `adt.c/.h`: number parsing and printing and strings in `Node.v`, the tree operations in `Adt.v`, paths in `Query.v` |
| `Opts.v` | `opts.c/.h`: all but zpl_opts_free and zpl_opts_print_errors. The union of an entry is a sum: reading an option as another type than it has is not described |
| `Path.v` | `file_misc.c/.h`, the Unix branches of zpl_path_is_absolute, is_root, base_name, extension, mkdir (its effect), mkdir_recursive, dirlist, zpl_dirinfo_init (path and names), zpl_dirinfo_step (the buffer). mkdir(2), opendir(3) and readdir(3) are modelled on a tree without links, permissions and the names . and ..; relative and absolute paths start at the same root; the limit is only on directory streams |
| `Posix.v` | `file.c`, `file.h`, `file_misc.c`, the Linux branches: seek, read, write, open, size, truncate, read_contents, write_contents, read_lines, copy, move, remove, exists, last_write_time, has_changed. open(2), lseek(2), pread(2), pwrite(2), write(2), ftruncate(2), sendfile(2), link(2), unlink(2) are modelled on regular files without links, permissions, interruptions and other processes; one call moves at most 0x7ffff000 bytes; allocations succeed; copying a file onto itself and file names as memory are left out |
| `Thread.v` | `thread.c`, the Unix branches: init, init_nowait, start, run, join, is_running (not destroy, names, ids). Memory is sequentially consistent although is_running and return_value are plain fields; pthread_create(3), pthread_join(3) and the semaphore have their usual meaning; one owner; a procedure returns, in one step |
| `Clock.v` | `time.c`, the Linux branches: gettime, time_rel_ms, time_utc_ms, time_tz_ms, sleep_ms (not rdtsc). The readings of clock_gettime(2) are parameters, as are timezone and what mktime(3) and localtime_r(3) make of a time |
| `Uri.v`, `Csv.v`, `Json.v` | the three parsers and printers |
| `Regex.v` | `regex.c` |
| `Jobs.v`, `Sync.v`, `SpinLock.v` | `jobs.c`, `sync.c`, spin locks and compare-exchange of `atomic.c` |
| `Vm.v` | `memory_virtual.c`, Unix |
| `Vec.v`, `Geom.v`, `Half.v` | `math.c`: vectors, matrices, quaternion algebra, rounding, remainder, reflection, boxes, frustums, interpolation, half precision |
| `Rot.v` | `math.c`: normalisation, rotations, Euler angles, quaternion interpolation, views, projections, over real numbers: no rounding, no overflow; the functions of `<math.h>` are taken to be the exact ones (the default build); NaN is `None` in zpl_quat_slerp and zpl_quat_squad and excluded by hypotheses elsewhere |
| `FloatFun.v` | `math.c`: zpl_floor64, zpl_ceil64, zpl_round64, zpl_remainder64, zpl_abs64, zpl_sign64, zpl_copy_sign64 (the sign of a NaN is not modelled), zpl_mod64; `random.c`: zpl_random_range_f64 |
| `Single.v` | `math.c`: zpl_quake_rsqrt (the bits of a NaN are not modelled; `>>` of a negative int is taken to be arithmetic) |
| `SingleFun.v` | `math.c`: zpl_floor, zpl_ceil, zpl_round, zpl_remainder, zpl_mod, zpl_copy_sign (on the bits; those of a NaN are not modelled), zpl_fast_exp; the macros zpl_abs and zpl_sign |
| `Angle.v` | `math.c`: zpl_to_radians, zpl_to_degrees, zpl_angle_diff, without rounding and on singles |
| `Plane.v` | `math.c`: the functions of zpl_vec2, and norm, norm0, mag, max, lerp and refract of zpl_vec3 and zpl_vec4, over real numbers: no rounding, no overflow. The in-place variants (zpl_vec2_addeq ...) are the same functions with d as operand |
| `Box.v` | `math.c`: zpl_aabb3 and zpl_rect3, zpl_aabb2_get_*, zpl_aabb2_add_*, zpl_rect2_intersects, without rounding; zpl_mat2_copy, zpl_mat3_copy, zpl_mat4_copy on memory made of objects |
| `HeapStats.v` | `memory_custom.c`: zpl_heap_allocator_proc with ZPL_HEAP_ANALYSIS on Linux, the heap statistics. Sizes do not overflow; aligned_alloc(3) keeps its contract |
| `Env.v` | `misc.c`: zpl_get_env*, zpl_set_env, zpl_unset_env, zpl_system_command, zpl_system_command_str on Unix; getenv(3), setenv(3), unsetenv(3) and popen(3) as their manual pages say, errors of pclose(3) are ignored as in the code |
| `FileLife.v` | `file.c`: opening, closing, temporary and standard files, only what they hold; not zpl_file_dirinfo_refresh. `file_misc.c`: zpl_fs_get_type |
| `FmtStr.v` | `stringlib.c`: zpl_string_append_fmt, zpl_string_sprintf(_buf). `print.c`: zpl_bprintf_va, zpl_asprintf_va. `memory_custom`: zpl_alloc_str(_len) |
| `WriteStr.v` | zpl_json_write_string, zpl_csv_write_string_delimiter, zpl_uri_write_string; the writers themselves are those of `Json.v`, `Csv.v`, `Uri.v`, of which only the text is used, cut into pieces in any way |
| `TarDir.v` | `file_tar.c`: zpl_tar_pack_dir; of zpl_tar_default_unpack_file the making of directories. A directory opens as on Linux: with a size, and reading fails with EISDIR |
| `Nested.v` | `memory_custom.h`: zpl_arena_init_from_allocator, zpl_arena_init_sub, zpl_arena_free with a backing allocator, zpl_arena_check, zpl_alloc_copy, zpl_alloc_copy_align |
| `Atomic.v` | `atomic.c`, the variants for 64-bit x86 with gcc or clang, one integer; values unsigned; the effect of the missing memory and flag clobbers on the compiler is not modelled. Fences and spin locks are those of `SpinLock.v` |
| `Lock.v` | `mutex.c` and `sem.c`, the Unix branches without destroy: one mutex and one semaphore; the functions of pthread and sem as POSIX says, with the numbers of Linux. The other threading models take them as primitives |
| `Rmdir.v` | `file_misc.c:212-272`, the Unix branches: mkdir(2) and rmdir(2) as on Linux over a tree without links and without the names . and ..; one permission, that of the directory the entry is in |
| `FullName.v` | `file_misc.c:192-209`, the Unix branch; realpath(3) is a parameter: the address of its block, 0 if it failed |
| `Socket.v` | `socket.c:28-107, 119-142, 152-162`, the Unix branches: create, close, accept, receive, receive_from, get_address. The system's answers are parameters; addresses are numbers; only sockets have descriptors. Not: listen, send and name lookup |
| `Select.v` | `socket.c:164-192`; select(2) of Linux by what it reports: whether a descriptor can be read within the time is a parameter |
| `SoftMath.v` | `math.c:95-209`, the functions for MSVC with ZPL_NO_MATH_H, and `math.c:247-248` with these; rounding is left out, zpl_log is given the bits of a positive normal number |

Simplifications that concern several files:

* Pointer arithmetic does not wrap; pointers are compared as integers.
* Atomics are sequentially consistent; plain accesses of the job slot and status
  take effect in program order; fences have no effect.
* `va_arg(va, int)` takes the low 32 bits of a 64-bit slot (x86-64).
* `char` is signed.
* Matrices, quaternions and geometry are over an exact field or the rationals:
  no rounding. Results of `sqrt`, `sin`, `cos` are parameters.
* The parsers (URI, CSV, JSON) build trees without parent links, their
  allocations succeed, reals are kept as the text given to the conversion; only the
  printing of a real without a style looks at its value.
  `ZPL_JSON_DEBUG` is off, analysis of styles is on. The static buffer of the
  formatted printing starts zeroed.
* Regular expressions: allocations succeed.

## Not modelled

`process.c`, `dll.c`, `affinity.c`, Windows variants, `zpl_random_init`, the approximations of
the functions of `<math.h>` (not in the default build).

## Disagreements: what a user would expect and the code does not do

Each item is a theorem `..._refuted` (or the exact characterisation) of the property named.

* Memory and allocators (C10-C15, C68): arena blocks of different alignments and
  the scratch allocator can overlap; the scratch release loop need not end;
  releasing an over-aligned scratch block reads a stale word as its header;
  stack and pool limits as stated there.
* Arrays (C16, C17): `append_at` out of range writes out of bounds; `remove_at`
  accepts negative indices; failed `set_capacity` drops the tail.
* Ring (C18, C19): `get_array` returns one element too few.
* Hash table (C21): `remove_entry` leaves stale chain links.
* List (C23): adding and removing break back links.
* Sorting (C24-C28, C69): an inconsistent comparator reads past the end for more
  than 8 elements; `radix_sort_u8` leaves arrays unsorted; shuffle can use a
  negative index; reverse goes out of bounds; comparator factories share one
  static offset.
* Hashes (C30, C33): CRC-64 ignores leading zeros; murmur64 ignores the tail.
* Base64 (C35): "====", "!====" and "abc" access memory out of bounds.
* UTF-8 (C39, C71, C72): truncated sequences step over the NUL; `strnlen`
  over-reads; lone surrogates; `codepoint_size` is always 1.
* C strings (C42-C44, C73): the sign of `strncmp` comes from addresses;
  `strcpy`/`strcat` leave no terminator; `strlcpy` can; `strntok` cuts tokens;
  `split_lines` overruns.
* Numbers (C40, C41, C74): round trips fail for bases 11-64 except 16;
  `INT64_MIN` overflows; "-0x" is not detected in base 0.
* Length-prefixed strings (C45, C75): self-append is a use after free;
  `allocation_size` off by one; join dereferences NULL.
* Doubles (C86, C87): decimal fractions and large exponents are misread; printing truncates,
  can write 10 for a digit (the number below 0.1 comes out as 0.0100000), is undefined from 2^64 on, for
  infinities and NaN, with 16 places for some numbers and with 18 for all.
* Numbers in documents (C88): "0X1F" and "-0x1f" are read as 0, "1e3" as 1, "abc" as 0; a fraction
  of 2^63 or more and 48 characters are undefined; negative exponents multiply by the
  single-precision 0.1; exponents outside -8..7 are written modulo 16; "-0.5" is written "--0.500000".
* Paths (C89): any word is index 0 of an array; "[" in a name and "[v]" on an object fail an
  assertion; names with a slash cannot be reached.
* Options (C90): `-n -5` is a missing value and an unknown option; a value ending with a backslash
  and an empty separate value make zpl_str_control_skip read outside the argument; a switch before
  a plain word is an error and stays unset unless positions are open; `-v:no` sets a switch; a
  9th option makes earlier positions dangle; zpl_opts_print_help reads entries[count], outside the
  allocation when the table is full, and lists positions in reverse order.
* Paths (C91): the extension may contain a slash; mkdir_recursive reports success when a file is in the
  way; names beginning with .. are not listed; each listing leaves directory streams open until none are
  left; zpl_dir_info keeps an unterminated path; zpl_dirinfo_step uses a buffer with stale bytes.
* Files (C92): a read at the end moves the position beyond it; write_at sometimes moves the position; the
  position after appending is wrong; short writes are reported as success; zpl_fs_copy keeps the end of a
  longer file and ignores fail_if_exists; zpl_fs_last_write_time tests stat(2) the wrong way round.
* Threads (C93): zpl_thread_start reports success and failure by a number other than 0; starting twice without
  joining is not noticed; with init_nowait is_running says nothing after a start.
* Clocks (C94): sums of doubles round the last part of a millisecond up; the relative clock starts again if it was started
  in the first millisecond.
* Rounding (C98): `floor64` of a negative whole number and `ceil64` of a whole number are off by one; `round64` of
  the double below 1/2 is 1; `mod64` tests `zpl_sign64(result)`, which is never 0, and so always adds the divisor.
* Random doubles (C99): the higher bound can be passed by rounding; a distance that overflows gives infinity or NaN.
* Quick reciprocal square root (C100): undefined for -0 and small negative numbers, finite for 0, infinite for
  infinity, wrong for numbers below the normal ones.
* Rounding of singles (C101): as for doubles, and as `0.9999999999999999f` is 1, `floor` of the number next to a
  power of two is off by one as well; `mod` is wrong unless the remainder is half of the divisor.
* Angles, vectors and copies (C103-C106): `angle_diff` reports small turns the wrong way round; `vec2_refract` and
  `vec3_refract` have the wrong normal part, and give NaN where they mean to give zero; `mat2_copy` copies nine floats.
* Heap statistics (C107): with `ZPL_HEAP_ANALYSIS` no block with an alignment of 64 or more is aligned, and a failed
  allocation writes to NULL instead of giving NULL.
* Environment and commands (C108, C109): `get_env` copies to NULL when there is no memory; `system_command` never
  terminates what it writes, and `system_command_str` drops zero bytes.
* Files (C110, C111): temporary files leak a FILE object; closing twice frees twice; closing a failed temporary file
  closes the standard input; block devices and sockets count as folders.
* Formatted strings (C112): a text of 65534 bytes is not appended; zpl_asprintf faults without memory.
* Documents in strings (C113): a failed JSON write leaks the stream; CSV and URI texts may have holes.
* Archives of directories (C114): a directory with a subdirectory cannot be packed (-2 after a header, no end).
* Nested arenas (C115): an inner arena for which there is no room is at NULL and still hands out addresses.
* Atomic stores (C116): a store that has returned may not be visible to other threads yet.
* Mutexes (C117): zpl_mutex_try_lock and zpl_mutex_init return 0, that is false, on success. Semaphores: units above 2^31 - 1 are lost, posting -2^31 overflows.
* Directories (C118): zpl_path_mkdir reports a missing parent as UNKNOWN (ENOENT is not translated there, but is in zpl_path_rmdir); a file where a directory is expected is UNKNOWN to both.
* Full names (C119): realpath's malloc block is freed with the caller's allocator; an arena leaks it, a pool hands it out as its own. The allocation is not checked.
* Sockets (C120): a failing bind, fcntl or connect leaks the descriptor; only the first address is tried; zpl_socket_receive_from and zpl_socket_get_address pass sizeof as a pointer, so they fail, the former after taking the message.
* Waiting for sockets (C121): descriptors from 1024 on write beyond the fd_set; zpl_socket_multi_select does not tell which sockets are ready; a socket below -1 is an error to the one and skipped by the other.
* Functions without math.h (C122): zpl_arctan2 mirrors points of the left half plane that are nearer the y axis, so zpl_arccos of numbers between -sqrt(1/2) and 0 loses the sign; zpl_arccos(-1) is -pi; zpl_log2 of a power of two is more than 0.05 too high; zpl_pow uses e instead of the base for the fraction of the exponent; zpl_sin and zpl_cos do not reduce their argument.
* Random (C46, C47): the full range overflows; unique numbers repeat.
* Memory streams (C48): reads and writes are not bounded by the size.
* Tar (C49, C50, C78): names over the field length dropped, sizes modulo 2^32,
  "a/../../b" escapes and "..a" is refused, path buffer overrun, negative sizes loop for
  ever, truncated archives are over-read; an entry lost for want of memory leaves the result 0.
* URI (C51): a truncated '%' reads past the NUL; texts of 65536 or more overflow
  the decode buffer; the origin is used as a printf format; trailing empty flags
  are lost.
* CSV (C52): a tab cannot be the delimiter; an empty quoted cell runs into the following ones;
  trailing empty fields are lost; longer later rows are accepted; a header-only
  table is written as nothing.
* JSON (C53, C54): a missing '}' is accepted; block comments swallow a character;
  escaped quotes grow; truncated texts are over-read; missing delimiters and
  trailing text are accepted; names in apostrophes end after a backslash; members of objects with some styles come back as
  other members.
* Numbers in texts: "5e3" parses as 5, "1a" as 1, "abc" as 0, "1.5e10" prints as
  "1.5e-6" (4-bit exponent field).
* Printing (C55, C77): the limit is not respected; conversions differ from C; a NULL string is read when the
  limit is below 6; a wide field overruns its buffer.
* Regular expressions (C57): see the property; also, groups cannot be quantified and
  `zpl_re_destroy` is declared but not defined.
* ADT (C58): stale parent links; moving within one parent copies the wrong
  neighbour; failed allocations dereference NULL; removing a branch leaks.
* Threads (C60-C62, C79): starvation under real-time jobs; a race on shutdown
  (hang, dropped jobs); barrier with target 0 jams, reuse asserts, a mutex is unlocked by
  a thread that does not hold it; the spin lock's compare-exchange arguments are
  exchanged.
* Virtual memory (C63): trim releases the wrong trailing range; purge's result is inverted.
* Mathematics (C65-C67, C81-C84): `s << 31` overflows; `mat3_inverse` is transposed;
  in-place inverses are wrong; `mat2_copy` copies too much; floor and ceil are off
  by one at some integers; `zpl_mod` is a remainder only for special divisors; refract's normal
  part; frustum planes mix transposed entries and swap components; boxes are
  contracted by their distance from the origin.
* Rotations (C95-C97): `quat_roll`/`quat_pitch` miss parentheses; `quat_axis` takes the arc cosine of
  the w before normalisation; slerp between equal or opposite quaternions, or with a product above 1, is NaN;
  the correction in `quat_slerp_approx` has the wrong sign, which makes it worse than `quat_nlerp`;
  `perspective_dx` lacks the factor far.
