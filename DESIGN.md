# Formal model of jeffsp/SPOC in Rocq (Coq 8.16.1)

This document says what is modelled, how each property of `properties.jsonl` is
stated and proved, what the code was found to do that a user would not expect,
and what the result rests on.

## 1. Layout

| Directory | Contents |
| --- | --- |
| `rocq/theories/Model/` | the model: only definitions, each with the file and lines of `/repo` it models and the simplifications made |
| `rocq/theories/Spec/` | small specifications written from the README, the manual pages and the standards, which do not use the model's algorithms |
| `rocq/theories/Proofs/` | lemmas |
| `rocq/theories/Props/` | the theorems named after the properties, each with examples that meet the hypotheses, and `Print Assumptions` |
| `seeded/LOG.jsonl` | edits of the model that should break a property, and the theorems that broke |

Model files and the code they follow:

| Model | Code |
| --- | --- |
| `Base.v` | outcomes, streams, `read`/`write` of plain values |
| `Double.v`, `Arith.v` | comparison, arithmetic and conversions of `double` |
| `Header.v`, `PointRecord.v`, `Point.v`, `Extent.v` | `spoc/header.h`, `point_record.h`, `point.h`, `extent.h` |
| `File.v`, `IO.v`, `Compression.v` | `spoc/file.h`, `io.h`, `compression.h` |
| `Voxel.v`, `Subsampling.v`, `RadiusSearch.v`, `Affine.v`, `Utils.v` | the headers of the same names |
| `Par.v` | the OpenMP loops of these headers |
| `AppUtils.v`, `Asprs.v`, `Json.v` | `spoc/app_utils.h`, `asprs.h`, `json.h` |
| `AppConvert.v`, `FilterApp.v`, `MergeApp.v`, `TileApp.v`, `TransformApp.v`, `DiffApp.v`, `ToolApp.v`, `SrsApp.v`, `InfoApp.v` | the work of the programs: `apps/*/*.h` without `*_cmd.h`, and what their `main` functions do with streams |
| `GetOpt.v`, `Commands.v` | `getopt_long`, `spoc/cmd.h`, `apps/*/*_cmd.h` |
| `Programs.v` | the `main` functions `apps/*/*.cpp` as a whole: arguments, standard input and output, files, exit status; the help texts |
| `Examples.v` | `examples/*.cpp` |
| `SpocPy.v`, `SpocPyValues.v` | `spocpy/spocpy/spocpy.cpp` |
| `TestUtils.v`, `GaussianCloud.v` | `spoc/test_utils.h` |
| `Benchmarks.v`, `BenchmarkIo.v` | `benchmarks/*.cpp`, `spoc/benchmark_utils.h` |

## 2. Modelling decisions

* **Scalars.** All machine integers are `Z` with explicit ranges. Every
  conversion that narrows in C++ is written as `mod 2^k` in the model.
* **Doubles.** A `double` is its 64-bit IEEE-754 pattern (a `Z` in
  `[0, 2^64)`), because the code copies doubles with `memcpy`-like I/O and bit
  identity is observable. Comparison (`==`, `<`, ...) is defined on patterns
  (NaN unordered, `-0 == +0`) and proved equal to Flocq's `Bcompare`.
  Arithmetic (`+ - * / sqrt`, integer conversions, `std::round`, `floor`) is
  Flocq's binary64, round to nearest even. The sign and payload of a NaN
  *produced* by arithmetic is Flocq's choice; no theorem depends on it.
* **Outcomes.** `Ret`, `Throw` (a C++ exception), `UB` (undefined behaviour:
  out of range float-to-integer conversion, out of bounds index, signed
  overflow, ...) and `Hang` (a loop that never ends) are distinct outcomes.
* **Contracts.** `REQUIRE` and `assert` depend on `NDEBUG`. The model takes a
  `debug : bool` where it matters; theorems hold for both values or say which.
  `assert` proper is modelled with `NDEBUG` set (the release build). The
  stream contracts of `spoc_transform` and `spoc_tool` (a failed stream in a
  debug build) are left out.
* **Streams.** An `istream` is the unread bytes plus its state flags;
  `read(n)` delivers what is there, sets eof+fail on a short read and leaves the
  rest of the destination buffer alone, as the standard says. An `ostream` is the
  bytes written plus a capacity: when it is exhausted the stream goes bad and
  later writes are dropped.
* **Files.** A file system is a function from names to contents, with rights to
  read and write each name. Two names are two files (no links, no `.` and `..`).
  Opening for output truncates. `std::filesystem` `stem` and `extension` are
  modelled (`Commands.v`).
* **Command lines.** `getopt_long` is glibc's with `POSIXLY_CORRECT` unset:
  permutation of operands, abbreviations, `--name=value`, grouped letters.
* **OpenMP** loops are modelled by a small-step interleaving semantics: each
  iteration is a list of atomic steps on the shared array and a schedule is any
  interleaving. An exception leaving a parallel region terminates the program.
* **Unordered containers** are association lists in insertion order; where the
  iteration order shows (the order of equal keys in `info`), the theorems
  quantify over it.
* **Non-termination**: loops that are not structurally bounded carry fuel; the
  theorems exclude or establish the out-of-fuel value for all fuel.
* **Memory**: allocations of at most 2^63-1 bytes succeed; larger ones throw
  `length_error` as `std::vector` does. `bad_alloc` is modelled in `resize`
  (C21), nowhere else.
* **Platform**: x86-64 Linux, little endian, `size_t` 64 bit, `int` 32 bit,
  libstdc++ for `min`, `max`, `stoi`, `istream::read`, `operator>>`, gcc's
  `typeid(T).name()` ("j" for `uint32_t`).

### Oracles

Library code the model does not define. Each is a parameter of the model
functions that call it; the theorems quantify over it, under the hypothesis
given here, which an example shows to be satisfiable.

| Oracle | Stands for | Hypothesis, where one is needed |
| --- | --- | --- |
| `zlib` | `deflate`, `inflate`, `compress`, `uncompress` | `zlib_ok` (Spec/ZlibContract.v): inflate undoes deflate, both respect `avail_out`, how truncated input ends. Met by `toy` (Proofs/ToyZlib.v) |
| shuffler | `std::shuffle` with a seeded engine | `permutes`: the result is a permutation |
| random source, noise | `std::uniform_int_distribution`, `std::normal_distribution` | none, or the range of the distribution |
| rng | the engine and distributions of <random> in test_utils.h | `rng_ok` (Spec/Testing.v): drawn numbers lie in the interval asked for. Met by `toy_rng` |
| log, normal | `log` and `std::normal_distribution` in the Gaussian cloud | `library_ok` (C120): ranges of the results. Met by `crude_log`, `toy_normal` |
| pow10 | `std::pow (10.0, p)` | `powers_of_ten`: exact for p <= 22. Met by `ten_to` |
| trig | `sin`, `cos` | none; for rotations by zero: `sin 0 = 0`, `cos 0 = 1`; for C103: `accurate`, absolute error at most 2^-52 |
| stod, atof, read_double | text to double | none; for round trips: reading what was printed gives the number (C64) |
| show, number_format | double to text | none; same |
| sorter | `std::sort` with `<` | the result is a sorted permutation where `<` is a strict weak order |
| access rights | permissions of files | none |

## 3. Properties and how they are proved

"Refuted" in a property's text means that the code does not do what a user
would expect. Then the theorem states what the code does instead, exactly, with
a witness: the statement in `properties.jsonl` says so.

| Id | Property | Theorems (in `Props/`) | Proof |
| --- | --- | --- | --- |
| C01 | Header round trip | HeaderProps.v: `header_round_trip` | Written header bytes are read back by executing writer and reader over symbolic fields; any trailing bytes are left unread. |
| C02 | Header acceptance is exactly signature and version | HeaderProps.v: `header_acceptance` | Case analysis of the reader over all byte lists, against a predicate on the first bytes. |
| C03 | Header bytes follow the published layout | HeaderProps.v: `header_layout` | Against the offset table of Spec/Format.v. |
| C04 | WKT length limit | HeaderProps.v: `header_wkt_limit`, `file_wkt_limit`, `bypass` | Both constructors and setters; the bypass theorem shows how a long text still gets in. |
| C05 | Truncated headers are accepted | HeaderProps.v: `truncated_headers_accepted`, `empty_stream_accepted` | For every cut of a written header. |
| C06 | Header equality | HeaderProps.v: `header_equality`, `header_equivalence` | Equality against field-wise equality; equivalence relation. |
| C07 | Point record round trip | RecordProps.v: `record_round_trip` | As C01, for all numbers of extra fields, induction over the extras. |
| C08 | Point record bytes follow the published layout | RecordProps.v: `record_layout` | Against the offset table of Spec/Format.v. |
| C09 | Streaming and bulk reading agree | RecordProps.v: `bulk_equals_streaming` | Induction over the number of records. |
| C10 | Uncompressed file round trip | FileProps.v: `uncompressed_round_trip` | Induction over the records, for every trailing input. |
| C11 | When reading an uncompressed file terminates | FileProps.v: `read_terminates_iff`, `loop_never_ends`, `written_files_hang` | Exact condition on the header for termination; divergence for every amount of fuel. |
| C12 | The number of extra fields in the header | FileProps.v: `header_extra_count`, `extra_count_lost` | Arithmetic of the one-byte count. |
| C13 | Compressed file round trip | FileProps.v: `compressed_round_trip` | Column by column through the zlib contract; `kept` (Spec/Files.v) says what survives. |
| C14 | Bit exactness of compressed files | FileProps.v: `bit_exact_iff` | Equivalence: the bits survive iff no all-zero column has a negative zero. |
| C15 | Readers and writers check the kind of file | FileProps.v: `readers_check_kind`, `writers_check_kind` | Case analysis on the compressed flag. |
| C16 | Reading arbitrary bytes is safe | FileProps.v: `reading_is_safe` | For all byte lists the outcome is a file, an exception or the hang of C11, never UB. |
| C17 | Files can be concatenated in one stream | FileProps.v: `concatenated_files` | From the round trips with trailing bytes. |
| C18 | Truncated data is accepted | FileProps.v: `cut_uncompressed_accepted`, `cut_compressed_accepted` | For every cut inside the data. |
| C19 | Write failures | FileProps.v: `full_device` | For every capacity of the output device; what is on the device is a prefix. |
| C20 | spoc_compress and spoc_decompress are inverse | FileProps.v: `tools_inverse` | Composition of C10 and C13 with the tools' headers. |
| C21 | All records of a file have the same number of extra fields | HistoryProps.v: `uniform`, `out_of_memory` | Invariant over histories of the whole public API (Spec/History.v), also with failing allocations. |
| C22 | Failed mutations leave the file unchanged | HistoryProps.v: `refused_unchanged`, `refused_iff` | Per operation; refusals characterised. |
| C23 | A spoc_file is a sequence of records | HistoryProps.v: `objects_are_lists`, `get_point_record` | Refinement of histories to plain lists. |
| C24 | get_header describes the file | HistoryProps.v: `get_header` | Per operation. |
| C25 | Column accessors | HistoryProps.v: `columns`, `extra_column`, `extra_missing`, `zero_tests`, `zero_rgb`, `zero_extra` | Induction over the records. |
| C26 | Equality and hashing of records, points and voxels agree | GeometryProps.v: `point_hash`, `record_hash`, `voxel_hash`, `equality`, `point_equality` | Hash functions respect equality; equality characterised. |
| C27 | Point order is a strict weak order | GeometryProps.v: `comparisons`, `strict_order`, `lexicographic` | Order on bit patterns. |
| C28 | In-memory compression is lossless | CompressionProps.v: `memory_lossless`, `bad_level` | zlib contract. |
| C29 | In-memory compression of 4 GiB or more silently truncates | CompressionProps.v: `large_input_truncated`, `large_input_lost`, `nonvacuous` | Arithmetic of the 32-bit counts in the model of the calls. |
| C30 | Stream compression is lossless | CompressionProps.v: `stream_lossless`, `stream_and_memory_agree`, `failed_stream_hangs`, `output_errors_reported` | Invariant of the deflate and inflate loops: output so far plus pending output. |
| C31 | Damaged compressed data | CompressionProps.v: `sized_decompress`, `truncated_accepted`, `truncation_detected_with_size`, `stream_ends`, `memory_exact`, `stream_exact`, `stream_total` | All ways inflate can end, from the contract. |
| C32 | Extents are tight bounds | GeometryProps.v: `extent_contains`, `extent_attained`, `order_independent`, `ordered` | Induction over the points with order theory on patterns. |
| C33 | Extents forget what comes before a NaN | GeometryProps.v: `nan_forgets`, `nan_last`, `point_outside` | As C32, at the last NaN. |
| C34 | Total extent is the union | GeometryProps.v: `total_extent`, `total_extent_many` | Induction over extents. |
| C35 | Point and extent serialisation | GeometryProps.v: `point`, `point_short`, `extent`, `points` | Text written and read back. |
| C36 | Crop keeps exactly the points in the box | GeometryProps.v: `crop`, `in_box`, `idempotent` | Membership in the box, coordinate by coordinate. |
| C37 | Quantize: exact results, when it is defined, when it is idempotent | VoxelProps.v: `value`, `multiple`, `large_undefined`, `list`, `power_of_two`, `not_idempotent`, `zero_precision` | Flocq error analysis: exact value, multiple of the precision, idempotence for powers of two, counterexamples by computation. |
| C38 | Affine operations act on their own coordinates only | ParProps.v: `add`, `add_vector`, `scale`, `rotate`, `neutral`, `rotate_by_zero` | Per operation, with the rounded exact result. |
| C39 | Voxel indexes | VoxelProps.v: `value`, `else_undefined`, `zero_at_minimum`, `monotone`, `cloud`, `not_finite` | Flocq: rounded quotient, monotonicity of rounding. |
| C40 | The voxel map partitions the points | VoxelProps.v: `own_voxel`, `shape`, `permutation`, `set` | Induction over the points; partition and permutation. |
| C41 | Subsampling keeps one point per occupied voxel | SearchProps.v: `succeeds`, `one_per_voxel`, `seed_zero`, `points` | Permutation and one-per-class argument over the voxel map, for every shuffle. |
| C42 | Unique keeps one point per location | SearchProps.v: `one_per_location`, `nan_kept`, `seed_zero` | As C41 on locations. |
| C43 | Filters are idempotent | FilterProps.v: `keep_classes`, `remove_classes`, `remove_coords`, `unique_xyz`, `subsample_not_idempotent` | From the specifications of the filters; a computed counterexample for subsampling. |
| C44 | Random neighbor selection draws every candidate exactly once | SearchProps.v: `draws`, `exhaustive`, `touching`, `int_limits`, `exhausted` | Invariant of the drawing loop, for every random source. |
| C45 | Radius search is sound | RadiusProps.v, SearchProps.v: `defined`, `true_distance`, `sound`, `returns`, `get_neighbors` | From the distance actually computed to the true distance (Spec/Distance.v) with error bounds. |
| C46 | Radius search is complete up to rounding | RadiusProps.v, SearchProps.v: `complete`, `touching_voxels`, `misses` | Voxels that touch the ball; the margin is an explicit rounding bound; a counterexample without it. |
| C47 | Parallel loops are schedule independent | ParProps.v: `voxels`, `voxels_of_indexes`, `radius_search`, `compress_columns`, `quantize`, `read_records` | Interleaving semantics: every schedule gives the sequential result because iterations write disjoint places. |
| C48 | Rescale maps into [0, 2^62] and restore undoes it, except for flat extents | CenterProps.v, VoxelProps.v: `restore`, `in_range`, `bounds`, `flat_undefined`, `single_point` | Flocq error analysis; the restored values are the original ones. |
| C49 | Class filters partition the file | FilterProps.v: `class_filters`, `partition`, `classes_as_int` | List filtering, `int` conversions of classes. |
| C50 | remove_coords removes exactly the matching points | FilterProps.v: `removes_matching`, `refuses_others` | As C49. |
| C51 | Merge concatenates | MergeProps.v: `concatenates`, `mismatch`, `unreadable`, `file_to_file`, `unreadable_result` | Induction over the files, exceptions included; from bytes to bytes. |
| C52 | Tiling partitions the records | TileProps.v: `partition`, `succeeds`, `empty_undefined` | Keys and places of the tile map; permutation of the records; files written. |
| C53 | Tiles are axis-aligned cells | TileProps.v: `cells`, `program`, `exclusive` | Monotone index arithmetic; the program's choice of sizes against an inductive reading of the options. |
| C54 | Number of tiles on the long side | TileProps.v: `small`, `large`, `one_too_many` | Flocq bound on the quotient; counterexample. |
| C55 | Tiles do not overwrite each other or existing files | TileProps.v: `distinct_names`, `existing_kept`, `none_removed`, `unreadable_overwritten` | Names are injective in the number; frame property of the loop that writes. |
| C56 | Transform preserves everything it does not name | TransformProps.v: `copy_field`, `numbers`, `quantize`, `noise`, `noise_axis`, `frame`, `file`, `two_runs`, `ends` | Frame per command by field; streaming equals record-wise map; composition of runs. |
| C57 | replace changes exactly the matching values | TransformProps.v: `replace`, `replace_in_range` | Per record. |
| C58 | replace-not changes exactly the non-matching values | TransformProps.v: `replace_not`, `one_value` | Per record. |
| C59 | What spoc_transform has written when it fails | TransformProps.v: `bad_command`, `bad_record`, `nothing_written` | Prefix of the output at the failure. |
| C60 | set assigns the value | TransformProps.v: `set` | Per record. |
| C61 | diff decides equality | DiffProps.v: `diff`, `symmetric`, `reflexive`, `transitive`, `files`, `unreadable` | Diff result iff files differ; symmetric, reflexive, transitive. |
| C62 | diff options | DiffProps.v: `fields`, `missing_extra_is_equal`, `unknown_letter`, `reverse`, `conflicts` | Per option. |
| C63 | resize_extra keeps the common prefix | ToolProps.v: `resize`, `up_and_back`, `command` | Per record. |
| C64 | get-field and set-field are inverse | ToolProps.v: `text`, `text_coordinate`, `missing_extra`, `round_trip`, `coordinates`, `only`, `coordinates_lossy` | Decimal text of integers read back by the modelled `operator>>`; oracle contract for doubles. |
| C65 | What set-field accepts | ToolProps.v: `exact`, `accepts`, `garbage`, `too_few` | Grammar of what is accepted (Spec/Fields.v). |
| C66 | subtract-min moves the minimum to zero | ToolGeometryProps.v: `subtract_min`, `order`, `again` | Flocq: minimum is moved to zero, order kept. |
| C67 | recenter | ToolGeometryProps.v: `recenter` | Rounded mean subtracted; `int` and empty cases. |
| C68 | upsample-classifications | ToolGeometryProps.v: `upsample`, `undefined`, `below`, `inside`, `empty`, `subsampled` | Voxel specification (Spec/Tools.v); when it is undefined; after subsampling. |
| C69 | spoc_srs | SrsProps.v: `set`, `get`, `get_stops`, `set_get`, `same`, `stdin`, `too_long`, `untouched`, `stdin_too_long`, `header_only` | From command to bytes; stdin and limits. |
| C70 | info counts every record once | InfoProps.v: `counts`, `only`, `total`, `in_order`, `labels`, `order`, `hash_order`, `lines` | Counting maps as multisets; labels and orders. |
| C71 | info quartiles | SummaryProps.v: `quartiles`, `range`, `empty`, `order_integers`, `order_doubles`, `nan_quartiles`, `nan_first`, `nan_later` | Sorted permutation specification of quartiles; NaN cases. |
| C72 | JSON output can be read back | JsonProps.v: `white_space`, `readable`, `unreadable`, `report`, `summary_unreadable` | A JSON reader in Spec/Reports.v; printed text parses to the value; refutation for the summary. |
| C73 | Field name parsing | TextProps.v: `extra_index`, `accepted`, `consume` | Grammar of field names. |
| C74 | Parsing of numbers | InfoMainProps.v, TextProps.v: `number`, `no_number`, `reads_the_list`, `terminates`, `large_refused` | Grammar of integer lists, termination; what consume_double leaves. |
| C75 | Classification names | InfoProps.v: `names`, `defined`, `codes` | Against the ASPRS table. |
| C76 | Which voxel a random draw picks | SearchProps.v: `not_uniform`, `never_picked` | Computed witness for the draw, for every source. |
| C77 | Adding an element of the cloud to the cloud | ParProps.v: `add_alias_races`, `add_alias_order` | Two schedules with different results. |
| C78 | spoc_filter only selects records | FilterProps.v: `only_selects`, `file_to_file`, `succeeds` | Composition of the filters, then from bytes to bytes. |
| C79 | spoc_tool from file to file | ToolProgramProps.v: `result`, `storable`, `always_storable`, `file_to_file`, `get_field`, `round_trip`, `refused`, `too_many_extras`, `moves` | Every command keeps files storable or the exact exception; bytes to bytes. |
| C80 | spoc_info from files to text | InfoMainProps.v, InfoProgramProps.v: `program_stdin`, `program_files`, `header`, `summary`, `sections`, `files`, `stdin`, `stops`, `stored` | Sections of the report in order, for several files and stdin; then for the program with its command line. |
| C81 | info densities | MetricProps.v: `densities`, `extent`, `defined`, `undefined`, `not_finite`, `empty`, `order`, `lines` | Flocq: densities as rounded quotients; special cases. |
| C82 | The center of a cloud is the mean of its points | CenterProps.v: `center`, `finite`, `empty` | Flocq error bound on the accumulated mean. |
| C83 | Which command lines the programs accept | CommandProps.v: `accepts`, `order`, `unambiguous`, `help` | The modelled getopt accepts exactly the grammar of Spec/CommandLines.v. |
| C84 | What the options of the programs mean | CommandProps.v: `convert`, `filter`, `transform`, `diff`, `tool`, `tile`, `merge`, `srs`, `info`, `numbers`, `no_number`, `file_name` | Meaning of options as the last / all / number of settings in the grammar. |
| C85 | A program touches nothing but its output | ProgramProps.v: `only_output`, `nothing`, `tiles`, `silent` | Frame property of each program for arbitrary argument vectors. |
| C86 | A failed conversion leaves no trace | ProgramProps.v: `clean` | Whatever goes wrong: no output and no file touched. |
| C87 | Named files and pipes are interchangeable | PipeProps.v: `pipes` | File names and pipes: same bytes. |
| C88 | spoc_decompress undoes spoc_compress | ScenarioProps.v: `compress_decompress` | Composition of C20, C84, C85. |
| C89 | One program after another | ScenarioProps.v: `stored`, `filter`, `classes`, `diff`, `srs`, `merge`, `fields` | Composition of the theorems on tools with those on command lines. |
| C90 | spoc_transform between files, in place and on compressed files | ScenarioProps.v: `transform`, `in_place`, `compressed` | As C89; the two refutations compute the resulting file for all inputs. |
| C91 | How programs end | ProgramProps.v: `status`, `version`, `help`, `mistakes` | Case analysis of `main`. |
| C92 | Subsampling and upsampling with the programs | WorkflowProps.v: `upsample`, `restores` | C68_subsampled and C78 lifted to programs; places up to the sign of zero. |
| C93 | Tiling and merging is a permutation | WorkflowProps.v: `tile_merge` | C52, C55 and C51 lifted to programs; permutation of records through two compressions. |
| C94 | The help says what the programs accept | HelpProps.v: `lists`, `understood`, `spellings`, `transform_letter`, `noise` | Equality of the printed text with the lines of the table, up to order; the grammar of C83 for every spelling; the refusals by computation and C84. |
| C95 | The stream example copies its input | ExampleProps.v: `noop`, `refused`, `copy`, `file` | Invariant of a stream that is good or used up; a record read from it is the padded bytes; induction over the announced number. |
| C96 | Averages of a stream | ExampleProps.v: `averages`, `mean`, `refused`, `generate`, `pipe` | As C95 with the running sums as invariant; C82 for the error of the mean; the layout determines the records for the pipe. |
| C97 | The Python module | SpocPyProps.v: `objects`, `copies`, `refused`, `assign`, `assign_extra`, `new`, `set_all`, `set_one`, `safe`, `write`, `long_wkt`, `write_read` | Invariant over all sequences of calls, using C16 for what is read and that writers put bytes only; frame by cases of the call; C12 and C13 for writing and reading. |
| C98 | When spoc_merge warns about the area | AreaProps.v: `warns`, `covered`, `empty_input` | Sums and products of non-negative doubles stay non-negative and finite for ordinary coordinates; the comparison by cases on a zero sum; sums of rounded terms dominate each term; once the sum is infinite or NaN it stays so. |
| C99 | What an uncompressed file that ends early is read as | TruncatedProps.v: `bulk`, `repeats`, `stream` | Spec/Truncation.v says which bytes element n of an array shows when a buffer is refilled without being cleared (inductively: what is there of the element over what the buffer showed). Proofs/StaleFacts.v carries the invariant through the loop over the chunks: slot j of the buffer shows element i - R + j. Props/TruncatedProps.v adds the header and the file constructor, derives the repetition for files cut between records, and proves for spoc_transform that two inputs with the same padded data are treated alike. |
| C100 | A compressed file cut anywhere | TruncatedProps.v: `_cut`, `_written` | Lockstep: Proofs/CutFacts.v runs the reader on the two streams, one of which is the beginning of the other. As long as the shorter one is good, every read gives the same; once it is bad it stays so and every length is read as 0. The reader is first shown to be a loop over the list of columns, so that this is one induction. That reading the cut bytes has no other outcome is C16. Theorems in Props/TruncatedProps.v. |
| C101 | How near a kept point is after subsampling | VoxelSizeProps.v: `_one_voxel`, `_indexes`, `_filter` | voxel1_same from the error bound of the twice rounded quotient (quotient_error); C41 gives a kept index in the same voxel; lifted to filter_process with only --subsample. |
| C102 | How far quantize moves a coordinate | VoxelSizeProps.v: `_error`, `_defined`, `_points`, `_transform` | Error analysis of rnd(trunc(rnd(x/p))*p) from C37_value with the standard rounding model. |
| C103 | Rotations turn by the given angle | TurnProps.v: `_commands`, `_library`, `_back` | Pi by Machin's formula from the standard library with rational arithmetic; Lipschitz bounds for sin and cos; error analysis of the two rounded sums of products; a math library cut to multiples of 2^-52 shows that the assumption can be met. |
| C104 | A tile is no larger than asked for | TileWidthProps.v: `_sizes`, `_tiles`, `_files` | Two coordinates with equal truncated quotients differ by less than the divisor; the rounding errors of the difference, the quotient and the tile size are bounded with Flocq; the files through C52 and C53. |
| C105 | Three ways of changing all records agree | UpdateProps.v: `_agree`, `_exception`, `_inconsistent`, `_resized`, `_bump` | The loop is unrolled by induction on the changed prefix; the change is an arbitrary function that may throw. |
| C106 | Generated test data keeps its promises | GeneratorProps.v, TestUtilsProps.v: `_any_records`, `_any_cloud`, `_any_points`, `_any_name`, `_records`, `_file`, `_cloud`, `_points`, `_tmp` | The engine and its distributions are a parameter of which only the ranges are assumed (a concrete engine meets them); induction over the draws; the file through C10 and C13.  GeneratorProps.v proves the promises exact with an engine that is fed the numbers it returns. |
| C107 | What about_equal compares | TestUtilsProps.v: `_defined`, `_undefined`, `_near`, `_equivalence` | std::round is modelled by doubling and truncation and shown to be within 1/2; the product's rounding error is bounded with Flocq. std::pow is a parameter assumed exact for the powers of ten that are doubles. |
| C108 | Moving and scaling can be undone | MovingProps.v: `_add_extent`, `_scale_extent`, `_add_back`, `_add_back_near`, `_add_back_exact`, `_scale_back`, `_commands` | Props/MovingProps.v, Spec/Moving.v. Rounding is monotone, so the least and greatest coordinate stay the least and greatest. The sum has a relative error without an underflow term, and the second sum is at least as near to its exact value as the old coordinate is. |
| C109 | One run of spoc_filter or several, and in which order | FilterOrderProps.v: `_commute`, `_unique_coords`, `_order_matters`, `_split`, `_runs` | Props/FilterOrderProps.v, Spec/FilterOrder.v. The program is a sequence of five steps, each depending on its own option; the class and coordinate filters are list filters; unique-xyz with seed 0 keeps the first record of each location, which commutes with a filter that respects equality of locations. Witnesses by computation. |
| C110 | Being neighbours is mutual | MutualProps.v: `_distance`, `_zero`, `_mutual`, `_self`, `_indexes`, `_all_neighbors`, `_lists`, `_cut_off`, `_random` | Props/MutualProps.v. Symmetry of the rounded distance is proved on Flocq's binary64 (rounding to nearest even commutes with negation; the overflow case gives infinities whose squares agree). Mutuality then follows from the exact description of an uncut list in C46_touching_voxels, whose two conditions are symmetric; the overloads are instances of the general search. C110_cut_off computes a cloud of two coincident points with capacity 1. The closed form of minstd_rand is by induction; that it is never 0 uses the inverse of 48271 modulo 2^31-1. |
| C111 | A debug build and a release build do the same | BuildProps.v: `_header_valid`, `_headers`, `_builds`, `_tool`, `_not_a_number` | Props/BuildProps.v. The models of the writers and of the tool commands take a flag that says whether the contracts are checked. Files that come out of a constructor, a reader, a copy or push_back have records with equally many extra fields, so the flag does not change what the writers do; the other contracts of spoc_tool follow from the checks in front of them (index in range, size not negative, field name parsed). For a NaN resolution the difference is computed on two files. The assert()s are not part of the model. |
| C112 | The area and the volume of an extent | BoxProps.v: `_area`, `_volume`, `_inside`, `_cloud`, `_flat`, `_finite`, `_empty` | The computed value is a product of rounded side lengths (Flocq). Error bounds by composing the relative error of each rounding; monotonicity because rounding is monotone and the factors are not negative; clouds by C32 (an extent contains its points and is attained by them). |
| C113 | What a Python program sees | SpocPyValueProps.v: `_columns`, `_extra`, `_versions`, `_set_get`, `_records`, `_header`, `_header_attributes` | Model/SpocPyValues.v gives the getters as functions from the state to Python values. Columns by C25; histories by the frame theorem C97_copies and induction over the calls; the header by C24 and C01 with a lemma that what is written begins with the header. |
| C114 | Programs that work on streams do not look ahead | StreamingProps.v: `_transform`, `_noop`, `_averages`, `_generated` | Induction over the records read so far, with an arbitrary rest of the input: the loop of spoc_transform (transform_points) either runs through them or stops on the first record on which the commands fail; whatever the stream, the remaining rounds only append. The example programs follow from C95 and C96 and an induction over the running sums. |
| C115 | What does not depend on the order of the records | RecordOrderProps.v: `_info`, `_subsample`, `_unique`, `_classes`, `_tiles`, `_subtract_min`, `_recenter_differs`, `_zeros_differ` | The extent of a permuted cloud has the same bits (C32 and the injectivity of the order key away from -0), the ranks of a column determine its sorted form, the columns of extra fields are permuted alike; the number of kept points is the number of distinct voxels or locations. Counterexamples by computation. |
| C116 | Whether the input is compressed makes no difference to what the programs compute | TransparentProps.v: `_filter`, `_tool`, `_tool_same`, `_info` | TransparentProps.v: each operation of the filter and tool commutes with setting the compression flag (induction over the loops); lifted to the programs with C84 and the reading/writing lemmas of ScenarioProps; the info report without its header part does not mention the flag. |
| C117 | Merging in stages is merging at once | StagedProps.v: `_stages` | StagedProps.v: one run is characterised by C51 and the round trip of writing and reading; records are compared by a transitive, symmetric relation (all but the id and signs of zeros); the exact case shows that nothing is lost by writing when no coordinate is a negative zero. |
| C118 | What the benchmark timer measures | BenchmarkIoProps.v: `_running`, `_stopped`, `_clock_set_back` | BenchmarkIoProps.v: the timer is a state machine over clock readings; the state after a history is computed by induction over the stops after the last start. |
| C119 | The input and output benchmark reads back what it writes | BenchmarkIoProps.v: `_uncompressed`, `_compressed`, `_program`, `_no_access` | BenchmarkIoProps.v: each step is reduced to the round trips of C09/C13; the whole program is chained over the file system, with the generator of C106 for the records. |
| C120 | The Gaussian test cloud | GaussianProps.v, GeneratorProps.v: `_cloud`, `_zero_draw`, `_any_cloud` | GaussianProps.v: bounds by powers of two are carried through multiplication and square root (Flocq), with assumed ranges for log, cos, sin and the normal distribution; a crude library shows that they can be met. |
| C121 | Reading a file and writing it again | RewriteProps.v: `_bytes`, `_empty`, `_unique`, `_stable` | Proved (Props/RewriteProps.v). C121_bytes, C121_empty, C121_unique: what a stream that is still good has given to the reader is the header and the records' bytes, chunk by chunk. C121_stable: whatever was read meets the conditions under which files round trip. |
| C122 | Filtering before or after merging | FilterMergeProps.v: `_merge`, `_unique_differs` | Proved (Props/FilterMergeProps.v). C122_merge: the filters look at one record at a time and not at its point id, and merging changes only point ids. C122_unique_differs: a witness. |
| C123 | Class counts add up | CountProps.v: `_merge`, `_tiles`, `_filters` | The report is shown to count, under each label, the records whose class has the label (from C70); then C51, C52 and C49. |
| C124 | Transforming before or after filtering | TransformFilterProps.v: `_commute`, `_random_differs`, `_replace_not_differs` | By C56 (record by record, and which fields a command touches) and by showing that only the random commands use the record number; the two orders then give the same list of records. |
| C125 | Transforming or resizing before or after merging | TransformMergeProps.v: `_transform`, `_resize` | From C51, C56 and C63, and a case analysis over the commands: none of those allowed reads or writes the point id. |
| C126 | The report on a tiled and merged file | TileReportProps.v: `_report` | C93, strengthened to give the point ids of the merged file, says that its records are those of the input in another order with other ids; C115 makes the report independent of the order, and every section but the summary of the ids reads fields that did not change. |
| C127 | Classifying a subsample classifies the whole cloud | ClassifyProps.v: `_classify` | Props/ClassifyProps.v composes C92 (the upsampling reaches every record), C90-style facts on what spoc_filter stores, and C60 (what --set does) through the programs' own file systems. |
| C128 | The ranges that spoc_info shows | RangeProps.v: `_columns`, `_merge`, `_filter`, `_tiles` | The range shown is a least and a greatest element of the column (C79); then C51 for merging, C78 for filters and C52 for tiles. |

Theorem names are the id followed by the name in the table, such as `C01_header_round_trip`.

## 4. Findings

What the proofs showed the code to do, which its documentation does not say.
Each is a theorem (in brackets) or is visible in one.

Files
* A truncated or empty header is accepted and read as zeros (C05); an empty
  input is a valid empty file. Truncated records are read as zeros (C18).
* Reading an uncompressed file whose header says 124 to 255 extra fields never
  ends (C11), and the library itself writes such files; `spoc_decompress` makes
  them from valid compressed files. The number of extra fields of an empty file
  is lost (C12).
* Compressed files lose the sign of zero in a column of zeros (C14).
* Write failures are not reported by any program (C19).
* In-memory compression of 4 GiB or more silently truncates (C29).
* Damaged compressed data can be accepted (C31).
* `move_point_records()` is documented to leave the file empty but returns an
  rvalue reference.

Geometry
* A NaN makes extents forget all points before it (C33).
* Quantizing is not idempotent in general and undefined for large quotients
  (C37). Voxel indexes are undefined for points far from or below the origin
  of the grid (C39).
* Subsampling twice can remove further points (C43).
* Radius search can miss points because of rounding (C46).
* `restore(rescale(x))` is undefined for flat extents (C48).
* Adding an element of a cloud to the cloud is a data race (C77).
* Random draws of voxels are not uniform; one voxel is never drawn (C76).

Programs
* `spoc_transform a a` leaves an empty file and status 0 (C90). Compressed input
  leaves an empty output (C90). The header is written before the commands are
  checked (C59). A truncated input is processed as zeros.
* `spoc_srs` truncates its output before it finds that the text is too long
  (C69).
* `spoc_tile` overwrites existing unreadable files without `--force` (C55); an
  empty file is undefined behaviour (C52); one tile too many can appear on the
  long side (C54).
* `--set-field` stops at garbage silently, narrows values, needs a character
  after the last number, and can make files with too many extra fields (C65,
  C79). `--get-field` of a missing extra field is undefined (C64), coordinates
  are printed with 16 digits, which loses information (C64).
* `--upsample-classifications` is undefined for low resolution points a voxel or
  more below the high resolution cloud and for an empty high resolution file
  (C68). A NaN resolution passes the check; a debug build then stops at a contract (C111).
* The JSON output uses single quotes and no escapes; several files follow each
  other without a separator; the columns c and p print "unknown type: j", which
  makes the summary of a non-empty file unreadable (C72).
* Classes of 2^31 and more are counted as negative numbers (C70). Quartiles of
  columns with NaN are undefined, a NaN in the first record hides minimum and
  maximum (C71). The order of records changes the sign of a zero minimum.
* `getExtra(k)` in Python is undefined for a k no record has (C113).
* `recenter` gives a different result when the records are in another order (C115).
* The extent of an empty cloud has area +infinity and volume -infinity (C112).
* Densities of empty files are NaN, of flat clouds infinite, and undefined for
  extents of 2^64 or more (C81).
* `atoi` makes 0 of words and truncates large numbers: `-k 4294967298` keeps
  class 2 (C84).
* The noise options and the letter `-a` of `spoc_transform` are advertised by the
  help text and the manual page but refused (C83, C94).
* `spoc_diff` refuses three of `--header-only`, `--data-only` and `--field`
  together, but not two of them (C62).
* One input without points silences the area warning of `spoc_merge` (C98).
* The bulk reader neither checks that its reads succeed nor clears its buffer.  Of an
  uncompressed file that ends early it makes as many records as the header announces,
  and the missing ones repeat those read 1024 / (40 + 8k) places before.  The tools that
  read record by record see zeros in the same places (C99).
* A compressed file cut anywhere after its header is read with an exception, or with the
  fields after the cut as zeros; only the state of the stream tells (C18, C100).
* `rotate_y` and `rotate-y` turn against the right-hand rule, unlike the other two
  rotations (C103).
* A failed change of all records leaves a file half changed, unchanged or without records,
  depending on how the records are accessed (C105).
* `about_equal` of numbers beyond about 2147483 is undefined behaviour, and tells apart
  neighbouring doubles on either side of a half (C107).
* The Gaussian test cloud has points outside the disk it is said to fill, and points that are not
  finite when the engine draws zero (C120).
* The benchmark timer uses the wall clock, so that times can be negative (C118).
* Subsampling may keep two points that are next to each other (C101).
* `spoc_filter` removes points by coordinate after subsampling, so that `-s` and `-c` in one run
  can lose the only representative of a voxel that `-c` before `-s` would keep (C109).
* `noop` and `stream_averaging` do not look at the state of the stream: when the
  input ends early they go on with records of zeros, for up to 2^64-1 rounds after
  the header of `generate_infinite_points` (C95, C96).
* Python's `writespocfile` empties the file before it finds that the WKT is too
  long; the next `readspocfile` then gives an empty object without an error.
  `getPointRecord` with an index out of range is undefined behaviour, not an
  IndexError (C97).

## 5. Not modelled

Python's names and scopes, decoding of Python strings,
the VERIFY macros of `test_utils.h`, `tests/`, the logs of `benchmarks/`, build files, the text of diagnostics on standard error and of
`what()` where no program prints it (so that an unknown letter or command is an
error without its name), `--verbose` logs, the order in which `spoc_diff` evaluates the two
headers, links between files, running out of memory except in `resize`,
`-ffast-math` and other compiler flags that change IEEE semantics.

## 6. Trusted base

* Coq 8.16.1's kernel, including `vm_compute`.
* The Coq standard library and Flocq's definitions of binary64 arithmetic
  (which Flocq proves correct against the standard library's reals; it adds no
  axioms). No axioms, parameters or admitted goals of our own.
* pybind11 behaves as documented: copies of returned records and vectors, range
  checks of integers, C++ exceptions as Python exceptions (C97).
* The reading of the C++ code expressed in `Model/`, the specifications in
  `Spec/`, and the hypotheses on oracles above.

`Print Assumptions` gives one of two answers. For the theorems in the first list
it prints "Closed under the global context". For those in the second list it
prints these four axioms of the standard library, which come with the real
numbers:

    ClassicalDedekindReals.sig_forall_dec
    ClassicalDedekindReals.sig_not_dec
    FunctionalExtensionality.functional_extensionality_dep
    Classical_Prop.classic

Closed under the global context (249): `C01_header_round_trip`, `C02_header_acceptance`, `C03_header_layout`, `C04_header_wkt_limit`,
`C04_file_wkt_limit`, `C04_bypass`, `C05_truncated_headers_accepted`, `C05_empty_stream_accepted`,
`C06_header_equality`, `C06_header_equivalence`, `C07_record_round_trip`, `C08_record_layout`,
`C09_bulk_equals_streaming`, `C10_uncompressed_round_trip`, `C11_read_terminates_iff`,
`C11_loop_never_ends`, `C11_written_files_hang`, `C12_header_extra_count`, `C12_extra_count_lost`,
`C13_compressed_round_trip`, `C14_bit_exact_iff`, `C15_readers_check_kind`,
`C15_writers_check_kind`, `C16_reading_is_safe`, `C17_concatenated_files`,
`C18_cut_uncompressed_accepted`, `C18_cut_compressed_accepted`, `C19_full_device`,
`C20_tools_inverse`, `C21_uniform`, `C21_out_of_memory`, `C22_refused_unchanged`,
`C22_refused_iff`, `C23_objects_are_lists`, `C23_get_point_record`, `C24_get_header`,
`C25_columns`, `C25_extra_column`, `C25_extra_missing`, `C25_zero_tests`, `C25_zero_rgb`,
`C25_zero_extra`, `C26_point_hash`, `C26_record_hash`, `C26_voxel_hash`, `C26_equality`,
`C26_point_equality`, `C27_strict_order`, `C27_lexicographic`, `C28_memory_lossless`,
`C28_bad_level`, `C29_large_input_truncated`, `C29_large_input_lost`, `C29_nonvacuous`,
`C30_stream_lossless`, `C30_stream_and_memory_agree`, `C30_failed_stream_hangs`,
`C30_output_errors_reported`, `C31_sized_decompress`, `C31_truncated_accepted`,
`C31_truncation_detected_with_size`, `C31_stream_ends`, `C31_memory_exact`, `C31_stream_exact`,
`C31_stream_total`, `C32_extent_contains`, `C32_extent_attained`, `C32_order_independent`,
`C32_ordered`, `C33_nan_forgets`, `C33_nan_last`, `C33_point_outside`, `C34_total_extent`,
`C34_total_extent_many`, `C35_point`, `C35_point_short`, `C35_extent`, `C35_points`, `C36_crop`,
`C36_in_box`, `C36_idempotent`, `C40_own_voxel`, `C40_shape`, `C40_permutation`, `C40_set`,
`C42_one_per_location`, `C42_nan_kept`, `C42_seed_zero`, `C43_keep_classes`, `C43_remove_classes`,
`C43_remove_coords`, `C43_unique_xyz`, `C44_draws`, `C44_exhaustive`, `C44_touching`,
`C44_int_limits`, `C44_exhausted`, `C47_compress_columns`, `C47_read_records`, `C49_class_filters`,
`C49_partition`, `C49_classes_as_int`, `C50_removes_matching`, `C50_refuses_others`,
`C51_concatenates`, `C51_mismatch`, `C51_unreadable`, `C51_file_to_file`, `C51_unreadable_result`,
`C55_distinct_names`, `C61_diff`, `C61_symmetric`, `C61_reflexive`, `C61_transitive`, `C61_files`,
`C61_unreadable`, `C62_fields`, `C62_missing_extra_is_equal`, `C62_unknown_letter`, `C62_reverse`,
`C62_conflicts`, `C63_resize`, `C63_up_and_back`, `C64_text`, `C64_text_coordinate`,
`C64_missing_extra`, `C64_round_trip`, `C64_coordinates`, `C64_only`, `C65_exact`, `C65_accepts`,
`C65_garbage`, `C65_too_few`, `C69_set`, `C69_get`, `C69_get_stops`, `C69_set_get`, `C69_same`,
`C69_stdin`, `C69_too_long`, `C69_untouched`, `C69_stdin_too_long`, `C69_header_only`,
`C70_counts`, `C70_only`, `C70_total`, `C70_in_order`, `C70_labels`, `C70_order`, `C70_hash_order`,
`C70_lines`, `C72_white_space`, `C72_readable`, `C72_unreadable`, `C73_extra_index`,
`C73_accepted`, `C73_consume`, `C74_number`, `C74_no_number`, `C74_reads_the_list`,
`C74_terminates`, `C74_large_refused`, `C75_names`, `C75_defined`, `C75_codes`, `C76_not_uniform`,
`C76_never_picked`, `C80_header`, `C83_accepts`, `C83_order`, `C83_unambiguous`, `C83_help`,
`C84_convert`, `C84_filter`, `C84_transform`, `C84_diff`, `C84_tool`, `C84_tile`, `C84_merge`,
`C84_srs`, `C84_info`, `C84_numbers`, `C84_no_number`, `C84_file_name`, `C88_compress_decompress`,
`C89_stored`, `C89_diff`, `C89_srs`, `C89_merge`, `C94_lists`, `C94_understood`, `C94_spellings`,
`C94_transform_letter`, `C94_noise`, `C95_noop`, `C95_refused`, `C95_copy`, `C95_file`,
`C96_generate`, `C97_objects`, `C97_copies`, `C97_refused`, `C97_assign`, `C97_assign_extra`,
`C97_new`, `C97_set_all`, `C97_set_one`, `C97_safe`, `C97_write`, `C97_long_wkt`, `C97_write_read`,
`C99_bulk`, `C99_repeats`, `C100_cut`, `C100_written`, `C105_agree`, `C105_exception`,
`C105_inconsistent`, `C105_resized`, `C109_commute`, `C109_unique_coords`, `C110_random`,
`C111_header_valid`, `C111_headers`, `C113_columns`, `C113_extra`, `C113_versions`, `C113_set_get`,
`C113_records`, `C113_header`, `C113_header_attributes`, `C114_noop`, `C114_generated`,
`C115_unique`, `C115_classes`, `C117_stages`, `C119_uncompressed`, `C119_compressed`,
`C119_no_access`, `C121_bytes`, `C121_empty`, `C121_unique`, `C121_stable`, `C122_merge`,
`C122_unique_differs`, `C123_merge`, `C123_filters`, `C125_resize`, `C128_columns`.

The four axioms (237): `C27_comparisons`, `C37_value`, `C37_multiple`, `C37_large_undefined`, `C37_list`,
`C37_power_of_two`, `C37_not_idempotent`, `C37_zero_precision`, `C38_add`, `C38_add_vector`,
`C38_scale`, `C38_rotate`, `C38_neutral`, `C38_rotate_by_zero`, `C39_value`, `C39_else_undefined`,
`C39_zero_at_minimum`, `C39_monotone`, `C39_cloud`, `C39_not_finite`, `C41_succeeds`,
`C41_one_per_voxel`, `C41_seed_zero`, `C41_points`, `C43_subsample_not_idempotent`, `C45_defined`,
`C45_true_distance`, `C45_sound`, `C45_returns`, `C45_get_neighbors`, `C46_complete`,
`C46_touching_voxels`, `C46_misses`, `C47_voxels`, `C47_voxels_of_indexes`, `C47_radius_search`,
`C47_quantize`, `C48_restore`, `C48_in_range`, `C48_bounds`, `C48_flat_undefined`,
`C48_single_point`, `C52_partition`, `C52_succeeds`, `C52_empty_undefined`, `C53_cells`,
`C53_program`, `C53_exclusive`, `C54_small`, `C54_large`, `C54_one_too_many`, `C55_existing_kept`,
`C55_none_removed`, `C55_unreadable_overwritten`, `C56_copy_field`, `C56_numbers`, `C56_quantize`,
`C56_noise`, `C56_noise_axis`, `C56_frame`, `C56_file`, `C56_two_runs`, `C56_ends`, `C57_replace`,
`C57_replace_in_range`, `C58_replace_not`, `C58_one_value`, `C59_bad_command`, `C59_bad_record`,
`C59_nothing_written`, `C60_set`, `C63_command`, `C64_coordinates_lossy`, `C66_subtract_min`,
`C66_order`, `C66_again`, `C67_recenter`, `C68_upsample`, `C68_undefined`, `C68_below`,
`C68_inside`, `C68_empty`, `C68_subsampled`, `C71_quartiles`, `C71_range`, `C71_empty`,
`C71_order_integers`, `C71_order_doubles`, `C71_nan_quartiles`, `C71_nan_first`, `C71_nan_later`,
`C72_report`, `C72_summary_unreadable`, `C77_add_alias_races`, `C77_add_alias_order`,
`C78_only_selects`, `C78_file_to_file`, `C78_succeeds`, `C79_result`, `C79_storable`,
`C79_always_storable`, `C79_file_to_file`, `C79_get_field`, `C79_round_trip`, `C79_refused`,
`C79_too_many_extras`, `C79_moves`, `C80_program_stdin`, `C80_program_files`, `C80_summary`,
`C80_sections`, `C80_files`, `C80_stdin`, `C80_stops`, `C80_stored`, `C81_densities`, `C81_extent`,
`C81_defined`, `C81_undefined`, `C81_not_finite`, `C81_empty`, `C81_order`, `C81_lines`,
`C82_center`, `C82_finite`, `C82_empty`, `C85_only_output`, `C85_nothing`, `C85_tiles`,
`C85_silent`, `C86_clean`, `C87_pipes`, `C89_filter`, `C89_classes`, `C89_fields`, `C90_transform`,
`C90_in_place`, `C90_compressed`, `C91_status`, `C91_version`, `C91_help`, `C91_mistakes`,
`C92_upsample`, `C92_restores`, `C93_tile_merge`, `C96_averages`, `C96_mean`, `C96_refused`,
`C96_pipe`, `C98_warns`, `C98_covered`, `C98_empty_input`, `C99_stream`, `C101_one_voxel`,
`C101_indexes`, `C101_filter`, `C102_error`, `C102_defined`, `C102_points`, `C102_transform`,
`C103_commands`, `C103_library`, `C103_back`, `C104_sizes`, `C104_tiles`, `C104_files`,
`C105_bump`, `C106_any_records`, `C106_any_cloud`, `C106_any_points`, `C106_any_name`,
`C106_records`, `C106_file`, `C106_cloud`, `C106_points`, `C106_tmp`, `C107_defined`,
`C107_undefined`, `C107_near`, `C107_equivalence`, `C108_add_extent`, `C108_scale_extent`,
`C108_add_back`, `C108_add_back_near`, `C108_add_back_exact`, `C108_scale_back`, `C108_commands`,
`C109_order_matters`, `C109_split`, `C109_runs`, `C110_distance`, `C110_zero`, `C110_mutual`,
`C110_self`, `C110_indexes`, `C110_all_neighbors`, `C110_lists`, `C110_cut_off`, `C111_builds`,
`C111_tool`, `C111_not_a_number`, `C112_area`, `C112_volume`, `C112_inside`, `C112_cloud`,
`C112_flat`, `C112_finite`, `C112_empty`, `C114_transform`, `C114_averages`, `C115_info`,
`C115_subsample`, `C115_tiles`, `C115_subtract_min`, `C115_recenter_differs`, `C115_zeros_differ`,
`C116_filter`, `C116_tool`, `C116_tool_same`, `C116_info`, `C118_running`, `C118_stopped`,
`C118_clock_set_back`, `C119_program`, `C120_cloud`, `C120_zero_draw`, `C120_any_cloud`,
`C123_tiles`, `C124_commute`, `C124_random_differs`, `C124_replace_not_differs`, `C125_transform`,
`C126_report`, `C127_classify`, `C128_merge`, `C128_filter`, `C128_tiles`.

`coqchk` lists further axioms that are in the context of the loaded libraries
(ssreflect's and the standard library's opaque module constants); no theorem
depends on them, as `Print Assumptions` shows.
