{"id": "C01", "title": "Header round trip", "statement": "For every header with the supported version 0.1, a WKT of at most 65535 bytes, a u8 extra-field count and a u64 point count, calling write_header and then read_header on the produced bytes followed by anything returns a header equal to the original and leaves the stream positioned exactly at the first byte after the header.", "quantifier": "all headers (every WKT byte string of length 0..65535, all counts, both compression flags), all trailing byte strings", "why_tests_cant": "the WKT length and contents and the counters range over astronomically many values; unit tests sample a handful", "anchors": ["spoc/header.h: write_header, read_header, header::header"]}
{"id": "C02", "title": "Header acceptance is exactly signature and version", "statement": "read_header throws if and only if one of the bytes delivered among the first six differs from 'S','P','O','C',0,1; every other stream (whatever follows, or nothing at all) is accepted.", "quantifier": "all byte streams of any length", "why_tests_cant": "tests try two or three bad signatures, not all streams", "anchors": ["spoc/header.h: read_header, header::check_signature", "spoc/version.h"]}
{"id": "C03", "title": "Header bytes follow the published layout", "statement": "write_header emits exactly: 'SPOC', u8 major, u8 minor, u16 little-endian WKT length, the WKT bytes, u8 extra-field count, u64 little-endian point count, u8 compressed flag; total length 18 + |WKT| bytes.", "quantifier": "all valid headers", "why_tests_cant": "layout has to hold for every field value, and a consistent reader/writer pair can hide a layout error in round trip tests", "anchors": ["spoc/header.h: write_header", "README.md"]}
{"id": "C04", "title": "WKT length limit", "statement": "Constructing a header with a WKT longer than 65535 bytes throws, and nothing longer can reach the output through spoc_file (writing such a file throws before any byte is written). If the limit is bypassed by assigning header::wkt directly, write_header succeeds but the bytes no longer read back as that header.", "quantifier": "all WKT lengths", "why_tests_cant": "the boundary is at 65536 and the failure is a silent modulo-65536 truncation of the length", "anchors": ["spoc/header.h: header::header, write_header", "spoc/file.h: spoc_file::set_wkt, spoc_file::get_header"]}
{"id": "C05", "title": "Truncated headers are accepted", "statement": "A reader that relies on exceptions cannot detect a cut header: read_header on any strict prefix of a written header returns normally, with the stream in the failed state and the compressed flag false; on an empty stream it returns the default header. (Finding: one would expect an exception.)", "quantifier": "all headers, all cut points", "why_tests_cant": "crash points: every prefix length of every header", "anchors": ["spoc/header.h: read_header"]}
{"id": "C06", "title": "Header equality", "statement": "operator== on two headers holds exactly when signature, versions, WKT, extra-field count, point count and compressed flag all agree; operator!= is its exact negation; == is an equivalence relation.", "quantifier": "all pairs (triples) of headers", "why_tests_cant": "a dropped comparison in one of the two hand written operators is only visible on pairs that differ in just that field", "anchors": ["spoc/header.h: operator==, operator!="]}
{"id": "C07", "title": "Point record round trip", "statement": "write_point_record followed by read_point_record with the same number of extra fields returns the same record bit for bit (NaN payloads and signed zeros included), consuming exactly 40+8k bytes whatever follows.", "quantifier": "all records, all numbers of extra fields, all trailing bytes", "why_tests_cant": "2^320 records times any number of extras", "anchors": ["spoc/point_record.h: write_point_record, read_point_record"]}
{"id": "C08", "title": "Point record bytes follow the published layout", "statement": "write_point_record emits x,y,z as 8-byte IEEE-754 little endian, then c,p as u32, i,r,g,b as u16, then each extra field as u64, all little endian, with no padding.", "quantifier": "all records", "why_tests_cant": "a symmetric reader/writer pair hides layout errors from round trip tests", "anchors": ["spoc/point_record.h: point_record, write_point_record", "README.md"]}
{"id": "C09", "title": "Streaming and bulk reading agree", "statement": "On a stream holding n complete records, the buffered bulk reader (1024-byte buffer) returns the same records as n calls of read_point_record and leaves the same remaining stream, for every record size up to the buffer size.", "quantifier": "all record lists, all extra-field counts 0..123, all trailing bytes", "why_tests_cant": "chunk boundaries depend on n and on the record size; tests use a few sizes", "anchors": ["spoc/io.h: read_uncompressed_points", "spoc/point_record.h: read_point_record"]}
{"id": "C10", "title": "Uncompressed file round trip", "statement": "For every spoc_file (version 0.1, WKT <= 65535 bytes, at most 123 extra fields, uncompressed), write_spoc_file then read_spoc_file yields an identical file: same WKT, flag, record order and bit-identical records, and leaves the bytes after it unread.", "quantifier": "all files of any number of points, any trailing bytes", "why_tests_cant": "unbounded point counts and every field value", "anchors": ["spoc/io.h: write_spoc_file_uncompressed, read_spoc_file, read_uncompressed_points", "spoc/file.h: spoc_file"]}
{"id": "C11", "title": "When reading an uncompressed file terminates", "statement": "On a written or arbitrary stream, read_spoc_file runs forever exactly when the header announces an uncompressed file with 124 or more extra fields and at least one point (and not so many points that the allocation is refused); on every other stream it terminates. In particular the library itself writes files it can never read. (Finding.)", "quantifier": "all byte streams", "why_tests_cant": "termination is a property of all executions; a test can only time out", "anchors": ["spoc/io.h: read_uncompressed_points"]}
{"id": "C12", "title": "The number of extra fields in the header", "statement": "The header produced for a file carries the file's number of extra fields modulo 256; so a file with 256 or more extra fields never reads back as itself, whatever the kind of file, and an empty file carries 0. (Finding: no error is reported.)", "quantifier": "all files, all numbers of extra fields", "why_tests_cant": "narrowing shows only from 256 fields on", "anchors": ["spoc/file.h: spoc_file::get_header", "spoc/header.h: write_header", "apps/tool/tool.h: set_field"]}
{"id": "C13", "title": "Compressed file round trip", "statement": "For every spoc_file with version 0.1, WKT <= 65535 bytes, at most 255 extra fields and columns under 2^31 - 32 bytes, writing it compressed and reading it back gives a file with the same WKT, flag, number and order of records, every integer field identical and every coordinate equal as a number (NaN bits preserved), and leaves trailing bytes unread.", "quantifier": "all files, all lossless zlib behaviours", "why_tests_cant": "unbounded point counts, every column content including all-zero columns", "anchors": ["spoc/io.h: write_spoc_file_compressed, read_spoc_file_compressed, compress_field, write_compressed, read_compressed"]}
{"id": "C14", "title": "Bit exactness of compressed files", "statement": "The compressed round trip is bit exact unless some coordinate column consists only of zeros and contains a negative zero; in that case, and only then, the signs of those zeros are lost.", "quantifier": "all files", "why_tests_cant": "needs the exact set of failing inputs", "anchors": ["spoc/io.h: all_zero, compress_field, read_compressed_points"]}
{"id": "C15", "title": "Readers and writers check the kind of file", "statement": "read_spoc_file_uncompressed throws on every stream whose header announces a compressed file and read_spoc_file_compressed throws on every uncompressed one; write_spoc_file_compressed and write_spoc_file_uncompressed throw, writing nothing, on a file whose flag does not match their name.", "quantifier": "all files and all streams", "why_tests_cant": "all streams", "anchors": ["spoc/io.h: read_spoc_file, read_spoc_file_uncompressed, read_spoc_file_compressed, write_spoc_file, write_spoc_file_uncompressed, write_spoc_file_compressed"]}
{"id": "C16", "title": "Reading arbitrary bytes is safe", "statement": "For every byte stream, read_spoc_file either throws, or runs forever (exactly the case of C11), or returns a file whose number of records and extra fields are exactly those announced in the stream's header, with all records having the same number of extra fields; the only stream on which it indexes outside a vector is a zero-point compressed file with a non-empty column. (Finding.)", "quantifier": "all byte streams, including hostile ones, and all zlib behaviours", "why_tests_cant": "fuzzing samples streams; the claim is about all of them", "anchors": ["spoc/io.h: read_spoc_file, read_compressed_points, read_compressed", "spoc/compression.h: decompress"]}
{"id": "C17", "title": "Files can be concatenated in one stream", "statement": "Writing any list of files one after the other to a stream and reading the same number of files back returns the list, in order.", "quantifier": "all lists of files (compressed and uncompressed mixed)", "why_tests_cant": "unbounded histories", "anchors": ["spoc/io.h: read_spoc_file, write_spoc_file"]}
{"id": "C18", "title": "Truncated data is accepted", "statement": "A reader that relies on exceptions cannot detect a cut file: read_spoc_file on an uncompressed file cut after the header returns the full announced number of records, and the records lying completely before the cut are intact; a compressed file cut between columns is accepted with the missing columns read as zero. (Finding: one would expect an exception.)", "quantifier": "all files, all cut points (crash points)", "why_tests_cant": "all crash points of all writes", "anchors": ["spoc/io.h: read_uncompressed_points, read_compressed_points", "spoc/header.h: read_header"]}
{"id": "C19", "title": "Write failures", "statement": "When the output device stops accepting bytes, what has arrived is a prefix of the complete file and the stream is left in the bad state, but write_spoc_file returns normally. (Finding: the failure is not reported unless the caller checks the stream.)", "quantifier": "all files, all device capacities", "why_tests_cant": "fault injection at every byte offset", "anchors": ["spoc/io.h: write_spoc_file, write_compressed", "spoc/header.h: write_header", "spoc/point_record.h: write_point_record"]}
{"id": "C20", "title": "spoc_compress and spoc_decompress are inverse", "statement": "Decompressing the compressed version of an uncompressed file with at most 123 extra fields gives back the bytes of the file (up to the sign of zeros in all-zero coordinate columns); compressing again gives the bytes of the compressed file.", "quantifier": "all files", "why_tests_cant": "every file", "anchors": ["apps/compress/compress.cpp", "apps/decompress/decompress.cpp", "spoc/io.h"]}
{"id": "C21", "title": "All records of a file have the same number of extra fields", "statement": "After every sequence of public operations on a spoc_file (constructors, push_back, set_point_record(s), moves, resize_extra_fields, swap, assignment, setters), successful or throwing, all records have equally many extra fields.", "quantifier": "all operation histories of any length", "why_tests_cant": "histories are unbounded", "anchors": ["spoc/file.h: spoc_file, all_same_size_extra"]}
{"id": "C22", "title": "Failed mutations leave the file unchanged", "statement": "When push_back, set_point_record, set_point_records, move_point_records(prs), resize_extra_fields or a constructor throws, every object is exactly what it was before the call; push_back, set_point_records and the constructors throw exactly when the records would not all have the same number of extra fields, and set_point_record exactly when the count differs from that of the file (or, in debug builds, the index is out of range). (Exception: when memory runs out in the middle of resize_extra_fields the file is left with records of different sizes.)", "quantifier": "all files and all arguments", "why_tests_cant": "all states times all arguments", "anchors": ["spoc/file.h: push_back, set_point_record, set_point_records, move_point_records"]}
{"id": "C23", "title": "A spoc_file is a sequence of records", "statement": "Every history of successful operations leaves the file with the same records a plain list would have: push_back appends at the end, set_point_record replaces one position only, set_point_records replaces all, resize_extra_fields(k) truncates or zero-pads every extras list to k and changes nothing else, copies are independent, swap exchanges the contents, clone_empty keeps metadata and drops the records, get_point_record(i) reads position i.", "quantifier": "all operation histories", "why_tests_cant": "histories are unbounded", "anchors": ["spoc/file.h: spoc_file"]}
{"id": "C24", "title": "get_header describes the file", "statement": "get_header returns the file's versions, WKT and flag, the number of records, and the number of extra fields (modulo 256); it throws exactly when the WKT is longer than 65535 bytes.", "quantifier": "all files", "why_tests_cant": "all files, and narrowing only shows from 256 extra fields on", "anchors": ["spoc/file.h: get_header, get_extra_fields"]}
{"id": "C25", "title": "Column accessors", "statement": "get_x .. get_b and get_extra(k) return for every file the k-th field of every record in record order; has_all_zero_* holds exactly when every element of that column is numerically zero.", "quantifier": "all record lists", "why_tests_cant": "all lists", "anchors": ["spoc/point_record.h: get_x, get_extra, has_all_zero_x"]}
{"id": "C26", "title": "Equality and hashing of records, points and voxels agree", "statement": "Equal keys have equal hash values (point, point_record, voxel_index), for every hash of the element type that respects equality; == is symmetric and transitive, and reflexive exactly on NaN-free values.", "quantifier": "all pairs of values", "why_tests_cant": "the zero signs and NaN make this false for bitwise hashing; only quantification over all pairs settles it", "anchors": ["spoc/point.h: operator==, hash<point>", "spoc/point_record.h: operator==, point_record_hash", "spoc/voxel.h: voxel_index_hash", "spoc/utils.h: hash_combine"]}
{"id": "C27", "title": "Point order is a strict weak order", "statement": "operator< on NaN-free points is the lexicographic order by x, y, z: irreflexive, transitive, and total up to ==; on finite doubles the comparison operators are those of the real numbers.", "quantifier": "all triples of NaN-free points", "why_tests_cant": "all triples of doubles", "anchors": ["spoc/point.h: operator<"]}
{"id": "C28", "title": "In-memory compression is lossless", "statement": "decompress(compress(v)) = v for every non-empty byte vector shorter than 2^31 - 32 bytes and every compression level zlib knows, and both loops terminate, whatever the number of 1 MiB output buffers needed (including output sizes that are an exact multiple of the buffer); other levels are refused with an exception.", "quantifier": "all byte vectors < 4 GiB, all lossless zlib behaviours", "why_tests_cant": "buffer-boundary cases depend on the compressed size", "anchors": ["spoc/compression.h: compress, decompress"]}
{"id": "C29", "title": "In-memory compression of 4 GiB or more silently truncates", "statement": "compress on an input of 2^32 bytes or more compresses only the first nbytes mod 2^32 bytes and reports no error, so decompressing gives a shorter vector. (Finding.)", "quantifier": "all vectors of at least 4 GiB", "why_tests_cant": "too big to test", "anchors": ["spoc/compression.h: compress", "spoc/io.h: compress_field"]}
{"id": "C30", "title": "Stream compression is lossless", "statement": "compress(is, os) then decompress(is, os) reproduces every input stream, for every input length and every input/output buffer alignment.", "quantifier": "all byte streams, all lossless zlib behaviours", "why_tests_cant": "alignment of 1 MiB buffers with the data", "anchors": ["spoc/compression.h: compress(istream,ostream), decompress(istream,ostream)"]}
{"id": "C31", "title": "Damaged compressed data", "statement": "Decompressing any bytes gives exactly the output of the inflate calls, or an exception as soon as one of them reports a missing dictionary, corrupt data or lack of memory, in memory and for streams (which stop at the end of the compressed stream). decompress to a buffer of known size throws unless exactly that many bytes come out; decompress without a size accepts truncated input silently and returns a prefix of the original.", "quantifier": "all byte strings; all truncations of all compressed vectors", "why_tests_cant": "all cut points", "anchors": ["spoc/compression.h: decompress"]}
{"id": "C32", "title": "Extents are tight bounds", "statement": "get_extent on a non-empty list of NaN-free, finite points returns per-axis bounds that contain every point and are attained by some point; it does not depend on the order of the points (up to the sign of zero).", "quantifier": "all point lists", "why_tests_cant": "unbounded lists of doubles", "anchors": ["spoc/extent.h: get_extent"]}
{"id": "C33", "title": "Extents forget what comes before a NaN", "statement": "If the last NaN of a coordinate is followed by finite points, get_extent returns on that axis the bounds of the points after it, forgetting all earlier ones, so an extent can exclude points of its own list; if the last point has a NaN there, the bounds on that axis are NaN. (Finding: one would expect a NaN not to change the extent of the other points.)", "quantifier": "all point lists containing NaN", "why_tests_cant": "depends on the position of NaN in the list", "anchors": ["spoc/extent.h: get_extent"]}
{"id": "C34", "title": "Total extent is the union", "statement": "get_total_extent of the extents of two NaN-free point sets equals (numerically) the extent of their concatenation, and it can be iterated over any number of sets.", "quantifier": "all lists of point sets", "why_tests_cant": "unbounded", "anchors": ["spoc/extent.h: get_total_extent"]}
{"id": "C35", "title": "Point and extent serialisation", "statement": "decode_point(encode_point(p)), decode_points(encode_points(ps)) and decode_extent(encode_extent(e)) return the argument bit for bit; the encodings have the documented sizes.", "quantifier": "all points, lists and extents", "why_tests_cant": "all bit patterns and lengths", "anchors": ["spoc/point.h: encode_point, decode_point, encode_points, decode_points", "spoc/extent.h: encode_extent, decode_extent"]}
{"id": "C36", "title": "Crop keeps exactly the points in the box", "statement": "crop returns, in order, exactly the points of the input that are not strictly outside the closed box on some axis; in particular every NaN-free point is kept iff minp <= p <= maxp on all axes, and crop is idempotent.", "quantifier": "all point lists and boxes", "why_tests_cant": "all lists of doubles", "anchors": ["spoc/utils.h: crop"]}
{"id": "C37", "title": "Quantize: exact results, when it is defined, when it is idempotent", "statement": "quantize replaces each coordinate x by n*precision (rounded once) with n the integer part of the rounded quotient, exactly when -2^31 <= n < 2^31, and is undefined behaviour otherwise (real world coordinates reach that); a zero precision throws in debug builds and is undefined otherwise. With a power of two precision the result is the exact truncation and quantizing again changes nothing. (Finding: in general it is not idempotent, e.g. 0.295 with precision 0.01.)", "quantifier": "all points and precisions", "why_tests_cant": "floating point corner cases", "anchors": ["spoc/utils.h: quantize", "apps/transform/transform.h: get_quantize_op"]}
{"id": "C38", "title": "Affine operations act on their own coordinates only", "statement": "add_x/y/z, add, scale_x/y/z, rotate_x/y/z change only the coordinates they name, by the stated floating-point expression, leave all other fields and the number and order of records unchanged, for every thread schedule of the parallel loops, without data races (the offset of add is not an element of the list itself: see C77). Adding 0, scaling by 1 and rotating by 0 degrees leave finite coordinates numerically unchanged.", "quantifier": "all record lists, all parameters, all schedules of the parallel loops", "why_tests_cant": "schedules cannot be enumerated", "anchors": ["spoc/affine.h: add_x, add, rotate_x, scale_x"]}
{"id": "C39", "title": "Voxel indexes", "statement": "For finite points, with finite positive resolution, get_voxel_indexes is defined exactly when the index of the far corner of the extent is; indexes are 0 at the minimum, monotone per coordinate and never negative, and equal the integer part of the twice rounded quotient (p-min)/res; NaN or infinite coordinates and quotients outside (-1, 2^64) are undefined behaviour.", "quantifier": "all points, extents and resolutions", "why_tests_cant": "floating-point range of values", "anchors": ["spoc/voxel.h: get_voxel_index, get_voxel_indexes"]}
{"id": "C40", "title": "The voxel map partitions the points", "statement": "get_voxel_index_map assigns every point index to exactly one voxel, its own, once, and lists the indexes of each voxel in increasing order; get_voxel_index_set contains exactly the occupied voxels.", "quantifier": "all voxel index lists", "why_tests_cant": "unbounded lists", "anchors": ["spoc/voxel.h: get_voxel_index_map, get_voxel_index_set"]}
{"id": "C41", "title": "Subsampling keeps one point per occupied voxel", "statement": "get_subsample_indexes returns distinct valid indexes, no two in the same voxel, at least one for every occupied voxel, whatever the random shuffle; with seed 0 it keeps the first point of every voxel, in order.", "quantifier": "all clouds, resolutions and permutations", "why_tests_cant": "all shuffles", "anchors": ["spoc/subsampling.h: get_subsample_indexes, subsample_points"]}
{"id": "C42", "title": "Unique keeps one point per location", "statement": "get_unique_xyz_indexes always succeeds and returns distinct valid indexes, no two at equal locations; every point not returned has an equal location among the returned ones, whatever the shuffle. Points with a NaN coordinate equal nothing and are all kept. With seed 0 exactly the points without an earlier point at an equal location are kept, in order.", "quantifier": "all clouds and permutations", "why_tests_cant": "all shuffles; numeric equality of +0/-0", "anchors": ["spoc/subsampling.h: get_unique_xyz_indexes"]}
{"id": "C43", "title": "Filters are idempotent", "statement": "keep-classes, remove-classes and remove-coords applied twice give the same as once. unique-xyz applied twice gives the same as once when the second run does not shuffle, and a permutation of it otherwise. Subsampling does not have this property (the grid origin moves), shown by a counterexample (points at x = 0.5, 0 and 1.4).", "quantifier": "all files, class sets, commands, seeds and shuffles", "why_tests_cant": "all files", "anchors": ["apps/filter/filter.h", "spoc/subsampling.h"]}
{"id": "C44", "title": "Random neighbor selection draws every candidate exactly once", "statement": "For every sequence of random numbers and every voxel map, calling the random neighbor selector as often as it reports points left never indexes out of bounds and returns every point of the 27 surrounding voxels exactly once; the number left decreases by one per call and ends at 0. The 27 voxels are distinct and are the touching ones as long as voxel numbers are below 2^31-2. (Finding: voxel numbers are cast to int, so numbers next to 2^31 are undefined behaviour and larger ones alias voxels modulo 2^32. Calling it with nothing left is undefined.)", "quantifier": "all voxel maps, all positions, all random sequences", "why_tests_cant": "all random sequences", "anchors": ["spoc/radius_search.h: random_neighbor_selector"]}
{"id": "C45", "title": "Radius search is sound", "statement": "The callback is called once for each search point, in position order; every position it receives is a valid position in the searched set, appears once, is within the radius (computed distance <= radius; true distance <= radius(1+2^-50) for coordinates up to 2^500 and radius at least 2^-500), and at most max_neighbors are reported. The search returns for every cloud that spans at most 2^30 radii. radius_search_get_neighbors reports at most 32 per point.", "quantifier": "all clouds, radii, caps, random sequences and schedules", "why_tests_cant": "all random sequences and schedules", "anchors": ["spoc/radius_search.h: get_neighbors, radius_search"]}
{"id": "C46", "title": "Radius search is complete up to rounding", "statement": "When the cap is not reached, a point is reported exactly if its computed distance is at most the radius and its voxel touches that of the search point. Every point whose true distance is at most (1-2^-19) times the radius is reported, for clouds that span at most 2^30 radii. (Finding: points within the radius can be missed at voxel boundaries: -0.3, 0.3, 0.5 with radius 0.2.)", "quantifier": "all clouds and radii", "why_tests_cant": "fails only for rare coordinate combinations", "anchors": ["spoc/radius_search.h: radius_search, get_neighbors", "spoc/voxel.h: get_voxel_index"]}
{"id": "C47", "title": "Parallel loops are schedule independent", "statement": "Every parallel loop of the library (voxel indexing, radius search and its callbacks, compression of the columns, assembling the records read from a compressed file, quantizing, and the affine operations of C38) is free of data races in every reachable state and, under every schedule that runs all iterations to completion, gives exactly the result of the sequential computation; each search point's callback is called exactly once. If an iteration fails, every complete schedule fails.", "quantifier": "all interleavings of any number of iterations", "why_tests_cant": "schedules cannot be enumerated", "anchors": ["spoc/voxel.h: get_voxel_indexes", "spoc/affine.h: quantize", "spoc/radius_search.h: radius_search", "spoc/io.h: write_spoc_file_compressed, read_spoc_file_compressed"]}
{"id": "C48", "title": "Rescale maps into [0, 2^62] and restore undoes it, except for flat extents", "statement": "rescale maps points within a non-flat extent (whose scaled size does not overflow) into [0, 2^62] per axis, the bounds going to 0 and 2^62, and restore gives every coordinate back up to one unit in the last place of itself and eight of the size of the extent; on an extent that is flat on some axis, in particular that of a single point, rescale is undefined behaviour (0/0 converted to an integer). (Finding.)", "quantifier": "all points and extents", "why_tests_cant": "floating point corner cases", "anchors": ["spoc/extent.h: rescale, restore"]}
{"id": "C49", "title": "Class filters partition the file", "statement": "keep_classes(S) and remove_classes(S) return complementary, order preserving subsequences of the records with the same metadata: every record is in exactly one of the two results, according to whether its class, converted to int, is in S. (Finding: a class from 2^31 is matched by a negative entry of S.)", "quantifier": "all files, all class sets", "why_tests_cant": "all files", "anchors": ["apps/filter/filter.h: keep_classes, remove_classes"]}
{"id": "C50", "title": "remove_coords removes exactly the matching points", "statement": "remove_coords with '<axis> < v' or '<axis> > v' removes exactly the records whose coordinate satisfies the comparison, keeps the order and metadata, and throws on a command with any other number of words, axis, operator or unreadable number. (Finding: text after the number is accepted and ignored.)", "quantifier": "all files, commands and values", "why_tests_cant": "all files", "anchors": ["apps/filter/filter.h: remove_coords, split"]}
{"id": "C51", "title": "Merge concatenates", "statement": "Merging two or more readable files with equally many extra fields yields all records of all inputs in input order, unchanged except for the point id, which becomes the input's position (or the given id); the output is compressed iff all inputs are and carries the first input's WKT, with a warning iff another WKT differs and quiet is off; a mismatch in the number of extra fields, an unreadable input or fewer than two inputs end the program without a byte of output. (Finding: an uncompressed empty file and a compressed one with 124 or more extra fields merge into a file that the readers never finish reading.)", "quantifier": "all lists of at least two files", "why_tests_cant": "all lists of files", "anchors": ["apps/merge/merge.h: append", "apps/merge/merge.cpp: main"]}
{"id": "C52", "title": "Tiling partitions the records", "statement": "When spoc_tile ends without an error, every record is in exactly one tile (concatenating the tiles gives a permutation of the input), each tile holds the records of one tile number in their input order, has the metadata of the input, is not empty and can be read back from its own file; no other file changes. It succeeds exactly when the tile numbers can be computed and each tile file may be written. (Finding: --tile-size on a file without records converts minus infinity to size_t, which is undefined behaviour.)", "quantifier": "all storable files, all arguments, all file systems and permissions", "why_tests_cant": "all files", "anchors": ["apps/tile/tile.h: get_tile_indexes, get_tile_map", "apps/tile/tile.cpp: main"]}
{"id": "C53", "title": "Tiles are axis-aligned cells", "statement": "Two records get the same tile number exactly when both their column and their row agree (the row stride exceeds every column number), and every number is computed, for finite coordinates, fewer than 2^53 - 1 columns and (rows)*(columns+1) at most 2^64. In the program --tile-size gives both the width of the columns and the height of the rows, --tile-size-x only the width and --tile-size-y only the height, an axis without a size is not divided, and a size for both axes together with a size for one is refused.", "quantifier": "all clouds and tile sizes", "why_tests_cant": "needs floating point monotonicity for all values", "anchors": ["apps/tile/tile.h: get_tile_indexes", "apps/tile/tile.cpp: main"]}
{"id": "C54", "title": "Number of tiles on the long side", "statement": "With --tiles=n at most n columns and n rows, so at most n*n tiles, when no side of the extent exceeds 2^26; for any finite extent up to 2^999 at most n+1 columns and rows. (Finding: from a side of 2^31 on the epsilon that should keep the maximum inside the last tile is absorbed by rounding, and for every power of two n there are n+1 columns.)", "quantifier": "all clouds of finite points, all n below 2^32 - 1", "why_tests_cant": "fails only for large extents", "anchors": ["apps/tile/tile.h: get_tile_size, get_tile_indexes"]}
{"id": "C55", "title": "Tiles do not overwrite each other or existing files", "statement": "Different tiles are written to different file names; without --force an existing file that can be read is never modified, whatever the input and whatever fails; no file is ever removed. (Finding: existence is tested by opening for reading, so an existing file that can be written but not read is overwritten without --force.)", "quantifier": "all inputs, arguments, file systems and permissions", "why_tests_cant": "all file system states", "anchors": ["apps/tile/tile.cpp: main, get_filename"]}
{"id": "C56", "title": "Transform preserves everything it does not name", "statement": "spoc_transform outputs the same header and the same number of records in the same order; record k of the output is the result of the commands, one after the other, on record k of the input; each command changes only the fields it names (replace-not excepted, C58); running two lists of commands one after the other is the same as running them together; and every run ends. (Findings: quantize-xyz and set convert doubles to integers without a range check, which is undefined behaviour; copy-field and replace narrow the value silently.)", "quantifier": "all uncompressed files, all command lists, all random streams, all results of the library's stod, sin and cos", "why_tests_cant": "all files and command lists", "anchors": ["apps/transform/transform.h: apply, get_add_x_op, get_copy_field_op, get_replace_op, get_set_op"]}
{"id": "C57", "title": "replace changes exactly the matching values", "statement": "replace f,v1,v2 sets the integer field f to v2 in exactly the records where it equals v1 and changes nothing else; an extra field that the file does not have is an exception. (Finding: negative values are taken modulo 2^32, also for the 64-bit extra fields, and v2 is silently narrowed to the type of the field.)", "quantifier": "all records, fields and values", "why_tests_cant": "all values; narrowing to u16/u32", "anchors": ["apps/transform/transform.h: get_replace_op"]}
{"id": "C58", "title": "replace-not changes exactly the non-matching values", "statement": "replace-not f,v1,...,vn,r leaves the records alone where field f is one of the vi; in all others it sets an extra field or the classification to r and changes nothing else. (Finding: for the fields p, i, r, g and b the classification is overwritten and the named field keeps its value.)", "quantifier": "all records, fields and values", "why_tests_cant": "only visible for five of the fields", "anchors": ["apps/transform/transform.h: get_replace_not_op"]}
{"id": "C59", "title": "What spoc_transform has written when it fails", "statement": "Without a command, or on a compressed input, nothing is written. With a command that cannot be understood the output is exactly the header of the input (finding: the header is written before the commands are checked, so a refused command still leaves a file whose header promises records that are not there). When a command fails on record n, the output is the header and the n transformed records before it.", "quantifier": "all files and command lists", "why_tests_cant": "all failure points", "anchors": ["apps/transform/transform.h: apply"]}
{"id": "C60", "title": "set assigns the value", "statement": "set f,v assigns v (truncated toward zero) to the field f of every record when v is in range of that field and changes nothing else; a coordinate gets v itself; an extra field that is not there is an exception; outside the range the conversion is undefined behaviour (finding: there is no check).", "quantifier": "all records, fields and values", "why_tests_cant": "all doubles", "anchors": ["apps/transform/transform.h: get_set_op"]}
{"id": "C61", "title": "diff decides equality", "statement": "Without a selection of fields spoc_diff returns 0 exactly when the parts that are compared (header, data or both) are the same, and -1 otherwise; coordinates are compared as numbers. The comparison is symmetric and transitive; a file is the same as itself exactly when no coordinate is a NaN. On two written files, compressed or not, the exit status says whether the files before writing were the same. An unreadable file gives -1.", "quantifier": "all pairs of files", "why_tests_cant": "all pairs of files", "anchors": ["apps/diff/diff.h: diff"]}
{"id": "C62", "title": "diff options", "statement": "With a selection of fields, spoc_diff returns 0 exactly when every selected column that both files have is the same, whatever other options say; an unknown letter is an error unless a difference was found before it; reverse turns 0 into 1 and -1 into 0. (Findings: an extra field missing from one file, or any extra field when one file has no records, counts as the same, so that the comparison is not transitive; of two conflicting options one wins silently, only all three together are refused.)", "quantifier": "all pairs of files and option combinations", "why_tests_cant": "all files and option combinations", "anchors": ["apps/diff/diff.h: diff", "apps/diff/diff.cpp"]}
{"id": "C63", "title": "resize_extra keeps the common prefix", "statement": "resize_extra(k) keeps the first min(k, old) extra fields of each record, zero fills the rest and changes nothing else; resizing up and back down is the identity. The command takes exactly the numbers 0 .. 255. (Finding: with 124 or more the uncompressed output is a file that cannot be read, see C11.)", "quantifier": "all files, all k", "why_tests_cant": "all files", "anchors": ["apps/tool/tool.h: resize_extra", "spoc/file.h: resize_extra_fields"]}
{"id": "C64", "title": "get-field and set-field are inverse", "statement": "Setting an integer field or extra field from the text printed by get-field leaves the file unchanged, for every file and field; set-field changes only the named field; get-field prints one number per record in record order. A coordinate comes back if the library reads back what it printed. (Findings: sixteen significant digits do not determine a double, so for every way of reading numbers some coordinate changes; get-field of an extra field the records do not have reads beyond the end of the vector.)", "quantifier": "all files and fields", "why_tests_cant": "all values", "anchors": ["apps/tool/tool.h: get_field, set_field"]}
{"id": "C65", "title": "What set-field accepts", "statement": "The exact behaviour of set-field on every text, for an integer field: one number per record, each followed by a character, is stored, reduced modulo 2^16, 2^32 or 2^64; too few numbers throw an exception and change nothing. (Findings: anything that is not a number is stored as 0, for this and all following records, without error; numbers that are too large are stored as other numbers; a text that ends directly after its last number is refused.)", "quantifier": "all files and texts", "why_tests_cant": "all texts", "anchors": ["apps/tool/tool.h: set_field"]}
{"id": "C66", "title": "subtract-min moves the minimum to zero", "statement": "For every file with finite coordinates, subtract-min subtracts one number per axis from every record (z only with the z option): it is the smallest value of that axis, no resulting coordinate is negative, and some record lands exactly on zero. Other fields, their order and the metadata are unchanged. The order of the coordinates along an axis is preserved in spite of rounding, and doing it again changes no coordinate.", "quantifier": "all files with finite coordinates", "why_tests_cant": "floating point rounding for all values", "anchors": ["apps/tool/tool.h: subtract_min"]}
{"id": "C67", "title": "recenter", "statement": "recenter subtracts one number per axis from every record (z only with the z option) and leaves all other fields, the order and the metadata unchanged. Whenever that number is finite it differs from the exact mean of the n <= 2^53 coordinates by at most ((1+2^-53)^(n+1) - 1) times the mean of their magnitudes, plus 2^-1075.", "quantifier": "all files", "why_tests_cant": "all files", "anchors": ["apps/tool/tool.h: recenter"]}
{"id": "C68", "title": "upsample-classifications", "statement": "Voxels are cubes of the given size counted from the low corner of the high resolution file. Every high resolution record whose voxel contains a low resolution record gets the class of the last such record in the file; all others, all other fields and the metadata are unchanged. This holds if all points of both files have a voxel index: low resolution points inside the bounding box of the other do; if the low resolution file has been subsampled from the high resolution one, every record gets a class from its voxel. (Finding: a low resolution point a voxel or more below the low corner, or any when the high resolution file is empty, is undefined behaviour.)", "quantifier": "all pairs of files and resolutions", "why_tests_cant": "all pairs of clouds", "anchors": ["apps/tool/tool.h: upsample_classifications"]}
{"id": "C69", "title": "spoc_srs", "statement": "Setting the SRS of a stored file writes a file (possibly over the input) that reads back with the new WKT and otherwise with what was read; getting it afterwards prints the new text; setting the text that is already there writes what was read. Getting prints the WKT of each file on a line, needs nothing beyond the headers, and stops at the first file that cannot be opened after printing those before it. A wrong number of files, an input that cannot be opened or read, or an output that cannot be opened leaves everything untouched. A WKT of more than 65535 bytes is refused. (Finding: in that case the output file has already been emptied, so with one file as input and output its points are lost.)", "quantifier": "all storable files, texts, file systems and access rights", "why_tests_cant": "all files", "anchors": ["apps/srs/srs.cpp: main", "spoc/file.h: set_wkt"]}
{"id": "C70", "title": "info counts every record once", "statement": "info reports every class that some record has, and no other, with the exact number of records that have it. The counts sum up to the number of records; labels are distinct per class and in the order of strings; neither the order of the records nor that of the hash table matters. The text report has one line per class with its name. (Classes from 2^31 appear as negative numbers, and the last nine are shown with the name of class 0.)", "quantifier": "all files, all classes below 2^32, all hash table orders", "why_tests_cant": "all files", "anchors": ["apps/info/info.h: get_class_count_map"]}
{"id": "C71", "title": "info quartiles", "statement": "The summaries of a column without NaN show its minimum, its maximum and their difference, or with quartiles the values of rank 0, n/4, n/2, 3n/4 and n-1, in the report and in the JSON object. They do not depend on the order of the records (up to the sign of zero for doubles). A NaN makes quartiles of different numbers undefined behaviour; as the first record it hides all others; elsewhere the minimum and maximum ignore it.", "quantifier": "all columns with fewer than 2^62 values, all sorting functions that meet the contract of std::sort", "why_tests_cant": "all lists", "anchors": ["apps/info/info.h: get_summary_object"]}
{"id": "C72", "title": "JSON output can be read back", "statement": "The compact and the indented printout of a JSON value differ in white space only, and both read back as the data of the value, unless a string has a quote in it or a value has a type that the printers do not know. The JSON report of info has exactly the sections asked for, with the header, the class counts and the metrics of the file. (With the summaries of a file that has records, the report cannot be read back: the 32-bit unsigned columns c and p print as 'unknown type'.)", "quantifier": "all values, all good files, all combinations of options, all number formats that print words", "why_tests_cant": "type-directed dispatch over all value kinds", "anchors": ["apps/info/info.h: get_summary_object", "spoc/json.h: pretty_print"]}
{"id": "C73", "title": "Field name parsing", "statement": "get_extra_index(\"e\"+n) = n for every n that fits int, and -1 for larger ones; check_field_name accepts exactly x,y,z,c,p,i,r,g,b and 'e' followed by a text that std::stoi reads as a number in [0, 2^31) (Finding: 'e5abc' and 'e +5' are accepted); consume_field_name removes exactly the longest run of letters and digits and one following character, and throws if that run is not an accepted name.", "quantifier": "all strings", "why_tests_cant": "all strings", "anchors": ["spoc/app_utils.h: get_extra_index, check_field_name, consume_field_name, is_extra_field"]}
{"id": "C74", "title": "Parsing of numbers", "statement": "consume_ints returns, for every list of ints written in decimal and separated by single characters that are not digits, exactly that list (modulo 2^32), and terminates on every string with at least one value or an exception. (Finding: unsigned values from 2^31 are refused.) consume_double takes the number that std::stod finds at the start together with exactly one character after it, whatever that is, and leaves the rest of the string; without a number it throws.", "quantifier": "all strings and integer lists", "why_tests_cant": "all strings", "anchors": ["spoc/app_utils.h: consume_int, consume_ints, consume_double"]}
{"id": "C75", "title": "Classification names", "statement": "The ASPRS class table defines exactly the codes 0..255, with the names of the standard for 0..22, 23..63 'reserved' and 64..255 'user_defined'.", "quantifier": "all codes", "why_tests_cant": "complete table", "anchors": ["spoc/asprs.h: get_asprs_class_map"]}
{"id": "C76", "title": "Which voxel a random draw picks", "statement": "The random neighbor selector is documented to pick uniformly among all points left. (Finding: it does not. Of the equally likely random numbers, each voxel is picked by as many as it has points left, plus one if it is the first non-empty voxel, minus one if it is the last. The last non-empty voxel is never picked while it has one point left and another is non-empty; within a voxel the points are taken in decreasing order.)", "quantifier": "all distributions of points over voxels, all random sequences", "why_tests_cant": "needs the number of random values per voxel for every distribution; a statistical test sees a small bias only by chance", "anchors": ["spoc/radius_search.h: random_neighbor_selector::operator()"]}
{"id": "C77", "title": "Adding an element of the cloud to the cloud", "statement": "affine::add takes its offset by reference. (Finding) When the offset is an element of the list being shifted, as in add(p, p[k]), and the list has a second element, a data race is reachable; and already without interleaving the result depends on the order in which the iterations run: x = [1; 2] with p[0] becomes [2; 4] in one order and [2; 3] in the other.", "quantifier": "all lists of at least two records, all k; existence of the schedules", "why_tests_cant": "the race shows only under some schedules", "anchors": ["spoc/affine.h: add"]}
{"id": "C78", "title": "spoc_filter only selects records", "statement": "Whatever options are combined, every record that spoc_filter writes is a record of its input, no record is written more often than it was read, the version, SRS and compressed flag are those of the input, the order is kept when the seed is 0, an error leaves the output without a single byte, and it only fails on an unreadable input or a bad remove-coords command.", "quantifier": "all input files, option combinations, seeds and shuffles", "why_tests_cant": "all combinations of options and all files", "anchors": ["apps/filter/filter.cpp", "apps/filter/filter.h"]}
{"id": "C79", "title": "spoc_tool from file to file", "statement": "Given the bytes of a stored file, spoc_tool with a command other than get-field either fails and writes nothing, or writes a file that reads back as what the command made of the file it read. Every command keeps the number of records, the version, the WKT and the compression flag of the file it starts from, and all values stay within the range of their fields; the result is storable exactly if its records have no more extra fields than the format allows, which recenter, subtract-min and upsample-classifications cannot change, and the first two always succeed. get-field prints an integer field one value per line, and set-field with that text writes the file again. Without a command, or with an unknown one, it fails and writes nothing. (Finding: set-field makes any number of extra fields, although resize-extra refuses more than 255; such a file cannot be stored.)", "quantifier": "all storable files, command texts, parameters, field files, and all codecs meeting the zlib contract", "why_tests_cant": "all files and all parameters", "anchors": ["apps/tool/tool.cpp: main", "apps/tool/tool.h"]}
{"id": "C81", "title": "info densities", "statement": "The voxel and grid densities that info reports are the number of records divided by the number of different unit voxels, and unit columns, that the records occupy, rounded once; the extent density is the number of records divided by the area of the bounding rectangle, infinite for a rectangle without area. They do not depend on the order of the records. They are defined exactly when all coordinates are finite and the extent is below 2^64 on every axis; otherwise it is undefined behaviour.", "quantifier": "all files with up to 2^53 records", "why_tests_cant": "all clouds, including flat ones, huge extents, NaN and infinite coordinates", "anchors": ["apps/info/info.h: get_metric_values", "spoc/voxel.h: get_voxel_indexes"]}
{"id": "C80", "title": "spoc_info from files to text", "statement": "info prints, for each file named and in that order, or for standard input, the sections asked for: the header on five lines, the summary of each column, the class counts and the metrics. A file that cannot be opened or read ends the program with an error after the reports of the files before it. For a stored file the report is that of what is kept of it, with the header and the classes of the original. No file is changed. The same holds for the whole program from the command line: the options toggle the sections, the exit status is 0, and standard input is read only when no file is named.", "quantifier": "all lists of files, all options, all good files", "why_tests_cant": "all files and options, all failures to open or read", "anchors": ["apps/info/info.cpp: main", "apps/info/info.h: process"]}
{"id": "C82", "title": "The center of a cloud is the mean of its points", "statement": "Each coordinate of get_center is the mean of that coordinate over all points, up to the rounding errors of the n additions and the division (a relative error of (1+2^-53)^(n+1)-1 in terms of the mean absolute value), and it is a number unless sums of the coordinates overflow; the center of no points is NaN.", "quantifier": "all clouds of up to 2^52 points", "why_tests_cant": "needs an error bound for every cloud, not a tolerance on a few", "anchors": ["spoc/utils.h: get_center"]}
{"id": "C83", "title": "Which command lines the programs accept", "statement": "Each of compress, decompress, filter, transform, diff, tool, tile, merge, srs and info goes on only if its command line follows the conventions of getopt_long for the options in its help (names or unambiguous beginnings of names, letters, letters together, arguments attached, after '=' or in the next word, '--' before operands), or asks for help; it never crashes on a command line. Options and operands may come in any order. A command line has only one meaning. After -h the rest is not looked at.", "quantifier": "all command lines (lists of words of any characters), all ten programs", "why_tests_cant": "infinitely many command lines, abbreviations and orders", "anchors": ["apps/*/*_cmd.h: get_args", "apps/*/*.cpp: main"]}
{"id": "C84", "title": "What the options of the programs mean", "statement": "For a command line without mistakes and without -h, each program gets exactly the settings that the options say: options that collect (keep-class, remove-class, field, the commands of transform) collect in order, others take the last value, switches of info and merge toggle, defaults hold otherwise, and the operands are the input and the output. transform refuses its noise options although its help shows them; tool takes at most one command. Numbers that fit are read as such; others are not refused but read as 0, -1 or modulo 2^32. tile splits its file name at the last dot after the last slash.", "quantifier": "all command lines in the grammar, all texts of numbers, all file names", "why_tests_cant": "infinitely many command lines and texts", "anchors": ["apps/*/*_cmd.h: get_args", "apps/tile/tile.cpp: main"]}
{"id": "C85", "title": "A program touches nothing but its output", "statement": "If the contents of a file differ after running spoc_compress, spoc_decompress, spoc_filter, spoc_transform, spoc_tool (without --get-field) or spoc_srs --srs, then the command line was well formed, had no --help or --version, and that file is its second name. spoc_diff, spoc_merge and spoc_info never change a file. spoc_tile changes only files named prefix plus tile number and the extension of the input (or .spoc or .zpoc), and without --force only those that could not be opened before. A program whose output goes to a named file prints nothing to standard output.", "quantifier": "all command lines, standard inputs, contents of the disk, access rights and zlib behaviours", "why_tests_cant": "A test looks at a handful of files after a handful of command lines; that no other file is ever touched, whatever the arguments and inputs, is a statement about all of them.", "anchors": ["apps/compress/compress.cpp:main", "apps/filter/filter.cpp:main", "apps/transform/transform.cpp:main", "apps/tool/tool.cpp:main", "apps/tile/tile.cpp:main", "apps/srs/srs.cpp:main", "apps/diff/diff.cpp:main", "apps/merge/merge.cpp:main", "apps/info/info.cpp:main"]}
{"id": "C86", "title": "A failed conversion leaves no trace", "statement": "If spoc_compress, spoc_decompress or spoc_filter ends with anything but status 0, or spoc_tool ends with status -1, then no file has changed (in particular the output file was not truncated) and nothing was printed to standard output.", "quantifier": "all command lines, inputs (damaged ones too), disks and access rights", "why_tests_cant": "There are unboundedly many ways for an input or a command line to be wrong; a test checks some of them.", "anchors": ["apps/compress/compress.cpp:main", "apps/decompress/decompress.cpp:main", "apps/filter/filter.cpp:main", "apps/tool/tool.cpp:main", "spoc/io.h:write_spoc_file"]}
{"id": "C87", "title": "Named files and pipes are interchangeable", "statement": "With the same options, a program that is given the name of its input does exactly what it does when the contents arrive on standard input; and when it is given the name of an output, that file afterwards holds exactly the bytes that would have been printed. For spoc_compress, spoc_decompress, spoc_filter and spoc_tool input and output may even be the same file; for spoc_transform they must differ.", "quantifier": "all option lists, file names, contents of files and disks", "why_tests_cant": "It relates two runs for every input and every choice of options.", "anchors": ["apps/compress/compress.cpp:main", "apps/decompress/decompress.cpp:main", "apps/filter/filter.cpp:main", "apps/transform/transform.cpp:main", "apps/tool/tool.cpp:main"]}
{"id": "C88", "title": "spoc_decompress undoes spoc_compress", "statement": "Running spoc_compress a b and then spoc_decompress b c on a file with an uncompressed cloud exits with 0 twice, leaves a file c whose records are those of a, byte for byte the file a unless a column holds nothing but zeros some of which are negative, and changes no other file.", "quantifier": "all clouds that fit the format (up to 123 extra fields), disks, file names and spellings of the command lines", "why_tests_cant": "The round trip must hold for every cloud, every number of points and extra fields.", "anchors": ["apps/compress/compress.cpp:main", "apps/decompress/decompress.cpp:main", "spoc/compression.h", "spoc/io.h"]}
{"id": "C89", "title": "One program after another", "statement": "The programs compose through files: spoc_filter writes exactly the filtered file and nothing when it fails; --keep-class=n and --remove-class=n split a file into complementary parts; spoc_diff returns 0 exactly when headers and records agree as its options demand; spoc_srs prints the text that spoc_srs --srs stored; spoc_merge prints the records of all its files in order with the identifiers asked for; spoc_tool --set-field restores from text what --get-field printed for an integer field.", "quantifier": "all storable clouds, disks, file names, spellings of the command lines and (for filter) shuffles", "why_tests_cant": "These are end-to-end statements about all files and all option lists.", "anchors": ["apps/filter/filter.cpp:main", "apps/diff/diff.cpp:main", "apps/srs/srs.cpp:main", "apps/merge/merge.cpp:main", "apps/tool/tool.cpp:main"]}
{"id": "C90", "title": "spoc_transform between files, in place and on compressed files", "statement": "spoc_transform a b applies the commands in order to each record of an uncompressed file and writes the result with the same header to b, changing nothing else. Two findings: with the same file as input and output it replaces the file by an empty cloud and still exits with 0; a compressed input is refused with -1, but only after the output file was emptied.", "quantifier": "all clouds, lists of commands, disks and spellings of the command line; the findings for all contents", "why_tests_cant": "The positive part ranges over all clouds and command lists; the findings say that no contents survive.", "anchors": ["apps/transform/transform.cpp:main", "apps/transform/transform.h:apply"]}
{"id": "C91", "title": "How programs end", "statement": "Every program ends with status 0 or -1, unless its behaviour is undefined or it does not end. A well-formed command line with --version (and not too many names) prints the version line, does nothing else and exits with 0. A command line with --help does nothing and exits with 0. A command line with a mistake changes no file, prints nothing but possibly the version, and exits with 0 (help was asked for before the mistake) or -1.", "quantifier": "all command lines, inputs and disks", "why_tests_cant": "Command lines are unbounded; every malformed one must be harmless.", "anchors": ["apps/compress/compress.cpp:main", "apps/compress/compress_cmd.h:get_args", "apps/tool/tool_cmd.h:get_args", "apps/info/info_cmd.h:get_args"]}
{"id": "C92", "title": "Subsampling and upsampling with the programs", "statement": "After spoc_filter --subsample=R of a finite, non-empty file A into B, the classes of B may be edited (and B moved to another file, or zero signs changed). Then spoc_tool --upsample-classifications=A --resolution=R B C ends with status 0, changes no file but C, and C holds the metadata and, in order, the records of A with only the class replaced, by the class of the one and only record of the low resolution file that shares the voxel. If the classes were not edited and the records of A that share a voxel have the same class, C reads as A.", "quantifier": "for all files with finite coordinates, all resolutions above zero, all seeds and shuffles, all command lines that ask for these two steps, all contents of the other files and all edits of the classes in between", "why_tests_cant": "The claim couples two programs through the voxel arithmetic on floating point numbers: subsampling must leave exactly one record per occupied voxel under every shuffle, and upsampling must find it for every record.", "anchors": ["apps/filter/filter_cmd.h", "apps/tool/tool_cmd.h", "apps/tool/tool.h:upsample_classifications", "spoc/subsampling.h", "spoc/voxel.h"]}
{"id": "C93", "title": "Tiling and merging is a permutation", "statement": "When spoc_tile of a storable file ends with status 0, the files it wrote have different names, all of the promised form, and nothing else changed. Giving these files (two or more) to spoc_merge in any order ends with status 0 and writes a file with the spatial reference and compression of the original, which holds every record of the original exactly once, changed at most in the point id and in the sign of zero coordinates, which only -0 can lose. The point id is the position of its tile on the command line of spoc_merge, or the value of --point-id.", "quantifier": "for all storable files, all tile sizes or tile counts and other options, all orders of the tiles, all command lines that ask for it, compressed or not", "why_tests_cant": "That no record is lost, duplicated or altered must hold for every distribution of points over tiles, for every floating point tile size and for every order of the names.", "anchors": ["apps/tile/tile.cpp", "apps/tile/tile_cmd.h", "apps/merge/merge.cpp", "apps/merge/merge_cmd.h"]}
{"id": "C94", "title": "The help says what the programs accept", "statement": "The help text of every program lists each of its options exactly once, with its name, its letter if it has one, and whether it takes an argument. Every spelling shown, with any argument filled in, is understood as that option in front of any command line, and the two spellings of an option can be exchanged without changing what the program is told, whatever follows. Two exceptions are proved to be so: spoc_transform shows -a for the seed and eight noise options, and refuses them all.", "quantifier": "for all programs, all options, all arguments, all command lines that follow, well formed or not", "why_tests_cant": "Arguments are arbitrary strings and may look like options; abbreviations and clusters of letters interact with what follows, so that no list of command lines covers them.", "anchors": ["spoc/cmd.h:print_help", "apps/*/*_cmd.h:get_args", "apps/transform/transform_cmd.h"]}
{"id": "C95", "title": "The stream example copies its input", "statement": "noop, the example of a streaming program, writes the header it read and as many records as that header announces, byte for byte those of the input; bytes that the input lacks come out as zeros and bytes after the last record are dropped. Every uncompressed file that the library writes, with up to 255 extra fields, is copied unchanged. Input that does not begin like a SPOC file, or is compressed, is refused with status -1 and nothing is written.", "quantifier": "for all byte strings as input, all files, all streams that accept output", "why_tests_cant": "It must hold for all contents of records, including bit patterns of coordinates that are not numbers, and for every place at which the input may end.", "anchors": ["examples/noop.cpp", "spoc/point_record.h:read_point_record", "spoc/point_record.h:write_point_record"]}
{"id": "C96", "title": "Averages of a stream", "statement": "stream_averaging reports, at the points where the clock asks for it, the number of points so far and the center of exactly these points; each coordinate of it is the mean up to the rounding of the sums and the division. Records that the input lacks count as zeros. generate_infinite_points writes a header that announces 2^64-1 points followed by one record for every three random numbers, and in a pipe the two programs report the centers of the points made so far. Other input is refused.", "quantifier": "for all inputs, all clocks, all random numbers, all numbers of points", "why_tests_cant": "The reports depend on the clock; that none of them loses or repeats a point must hold for every timing.", "anchors": ["examples/stream_averaging.cpp", "examples/generate_infinite_points.cpp", "examples/stream_averaging_example.sh"]}
{"id": "C97", "title": "The Python module", "statement": "Whatever calls a Python program makes and whichever of them raise, its SpocFile objects have version 0.1, records with members in range and equally many extra fields in all records. Getters return copies: an object changes only by its own methods, a record only by assignments to its attributes, a file only by writing it. A call that raises changes nothing, except that writespocfile may have changed its file. What setPointRecord and setPointRecords store is what the getters return. Writing an object whose WKT has at most 65535 bytes succeeds, and reading the file later gives what the format keeps; with a longer WKT writing raises after emptying the file, which is then read as an empty object. Only reading a file or an index out of range can end the program.", "quantifier": "for all sequences of calls, all arguments, all contents of the disk", "why_tests_cant": "The claims are about every interleaving of calls on shared objects, including calls after exceptions.", "anchors": ["spocpy/spocpy/spocpy.cpp", "spoc/file.h: set_point_record, set_point_records", "spoc/io.h: read_spoc_file, write_spoc_file"]}
{"id": "C98", "title": "When spoc_merge warns about the area", "statement": "For inputs whose points have ordinary coordinates, spoc_merge prints its warning about the merged area exactly when it is not told to be quiet and the area of the bounding box of all points, divided by the sum of the areas of the bounding boxes of the inputs, exceeds 100 (if that sum is 0: when the area of all points is not 0). It never warns when the points of one input span the bounding box of all. One input without points silences the warning, whatever the other inputs hold.", "quantifier": "for all lists of two or more inputs and all options", "why_tests_cant": "The ratio depends on rounding, zero and infinite areas; tests try a few pairs of files.", "anchors": ["apps/merge/merge.cpp: main (area_sum)", "spoc/extent.h: get_extent"]}
{"id": "C99", "title": "What an uncompressed file that ends early is read as", "statement": "Whatever bytes follow the header of an uncompressed file with at most 123 extra fields, the library's reader succeeds and returns as many records as the header announces, each with as many extra fields. A record that is in the file completely is read as it is. Of a record that is cut off or missing, the bytes that are there are used, and the others are taken from the record that was at the same place of the 1024-byte buffer before, that is from floor(1024/(40+8k)) records earlier, or are zero if there is none. So when the file ends after m whole records, every later record is an exact copy of the one that many places before it. spoc_transform, which reads record by record, treats the same input as if zeros followed, so the two ways of reading disagree.", "quantifier": "All good headers of uncompressed files, all byte strings after them, all records; for spoc_transform all command lists, seeds and output streams.", "why_tests_cant": "What is read depends on where the data ends in relation to the buffer, for every number of extra fields, records and missing bytes; tests only cut at a few places and only look for an error.", "anchors": ["spoc/io.h: read_spoc_file, read_uncompressed_points", "apps/transform/transform.h: apply", "spoc/point_record.h: read_point_record"]}
{"id": "C100", "title": "A compressed file cut anywhere", "statement": "Take any bytes that read_spoc_file reads as a compressed file with at least one record (in particular any such file written by the library), and cut them anywhere after the header. Reading the cut bytes throws, or returns a file with the same WKT, the same number of records and the same number of extra fields, in which, in the order of storage (x, y, z, c, p, i, r, g, b, extra fields), all fields before some field are exactly those of the complete file and all fields after it are zero; so at most one field can hold anything else. It never hangs or indexes outside a vector. If the stream is still good afterwards, the file is complete: a caller that checks the stream notices every cut. (Finding: the library does not check.)", "quantifier": "All byte strings that are read as a compressed file, all cut points after the header, every zlib that satisfies the contract.", "why_tests_cant": "There are as many cut points as bytes, for every file, and each leaves the reader in a different state; tests try a few, and cannot exclude that the fields read before the cut are affected.", "anchors": ["spoc/io.h: read_spoc_file, read_compressed_points, read_compressed", "spoc/compression.h: decompress"]}
{"id": "C101", "title": "How near a kept point is after subsampling", "statement": "For clouds with coordinates up to 2^500 that span at most 2^30 resolutions, get_subsample_indexes and spoc_filter --subsample succeed, and every input point has a kept point whose three coordinates each differ from its own by less than (1+2^-20) times the resolution, so within sqrt 3 resolutions; more generally any two points with the same voxel index differ by less than that on each axis. The kept points themselves may be adjacent doubles.", "quantifier": "all clouds, resolutions, seeds and shuffles within the stated range", "why_tests_cant": "rounding of every difference and quotient, all clouds", "anchors": ["spoc/subsampling.h: get_subsample_indexes, subsample_points", "spoc/voxel.h: get_voxel_index", "apps/filter/filter.h: subsample"]}
{"id": "C102", "title": "How far quantize moves a coordinate", "statement": "With a normal positive precision p, quantize and spoc_transform --quantize-xyz move each coordinate by less than (1+2^-20) p, never further from zero than it was (up to a relative 2^-50) and never to the other side of zero; the result is finite, and the call is defined whenever |x| is at most 2^31-1 precisions.", "quantifier": "all coordinates up to 2^500 and all precisions at least 2^-1022", "why_tests_cant": "rounding of every quotient and product", "anchors": ["spoc/utils.h: quantize", "apps/transform/transform.h: get_quantize_op"]}
{"id": "C103", "title": "Rotations turn by the given angle", "statement": "If the C library's cos and sin have an absolute error of at most 2^-52, then rotate-x, rotate-y and rotate-z (program and library, under every schedule) by up to 2^20 degrees turn the two coordinates of their plane by that many degrees, with M_PI's and all rounding errors together at most 2^-50 (1+|angle|)(|a|+|b|) (plus 2^-1073) per coordinate, and change nothing else; x turns towards y around z, y towards z around x, but x towards z around y, which is against the right-hand rule. Rotating back by the negated angle returns to within 2^-46 (1+|angle|)(|a|+|b|).", "quantifier": "all coordinates up to 2^500, all angles up to 2^20 degrees, all accurate math libraries, all schedules", "why_tests_cant": "rounding of the angle, of pi and of every product and sum", "anchors": ["spoc/affine.h: rotate_x, rotate_y, rotate_z", "apps/transform/transform.h: get_rotate_x_op, get_rotate_y_op, get_rotate_z_op"]}
{"id": "C104", "title": "A tile is no larger than asked for", "statement": "Two records that spoc_tile puts in the same file differ by less than the tile's width in x and less than its height in y, up to a relative error of 2^-20 (for at most 2^30 tiles along an axis). With --tiles n and n at most 2^29 they differ in x and y by less than the n-th part of the longer side of the cloud plus 2^-23, up to a relative error of 2^-19.", "quantifier": "all files with finite coordinates, tile sizes and tile counts", "why_tests_cant": "needs a bound on the rounding errors for all coordinates, extents and sizes", "anchors": ["apps/tile/tile.h: get_tile_size, get_tile_indexes", "apps/tile/tile.cpp: main"]}
{"id": "C105", "title": "Three ways of changing all records agree", "statement": "Changing every record of a file by get_point_record/set_point_record, by get_point_records/set_point_records or by moving the records out and in again gives the same file whenever the change keeps the number of extra fields. If the change throws at a record, the first way leaves the earlier records changed, the second leaves the file as it was and the third leaves it without records; the same holds if the change makes the numbers of extra fields inconsistent. A change of the number of extra fields in all records succeeds the second and third way and is refused, without effect, the first way.", "quantifier": "all files, changes of a record, and records at which a change fails", "why_tests_cant": "the change is the user's code and can fail at any record", "anchors": ["spoc/file.h: get_point_record, set_point_record, set_point_records, move_point_records", "benchmarks/benchmark_spoc_file.cpp: benchmark_change_point_records"]}
{"id": "C106", "title": "Generated test data keeps its promises", "statement": "The generators of test data that the library installs give as many records, points or letters as asked for: records with the asked number of extra fields, coordinates in [-1, 1], other fields in [0, 32768] and colors only if asked for; files of such records are always made, can be written and are read as they were; noisy clouds lie in the box between the origin and the extents; points at varying scales are finite and at most 2^max_exponent; temporary names are lower case letters after the directory. These promises are exact: every list of records, points, clouds or names that they allow is generated by some engine that keeps to the C++ standard, and the same engine can give any other such list for any other seed, so that no field, axis or seed depends on another.", "quantifier": "all seeds, sizes, extents, exponents, random engines that keep to the C++ standard, and orders of evaluating the arguments of ldexp", "why_tests_cant": "the numbers depend on the standard library's engine and on the compiler's order of evaluation", "anchors": ["spoc/test_utils.h: generate_points, get_noisy_point_cloud, generate_random_point_records, generate_random_spoc_file, generate_tmp_filename"]}
{"id": "C107", "title": "What about_equal compares", "statement": "about_equal(a, b, p) is defined when a and b times 10^p lie within the range of int and is undefined behaviour for larger a, even if a = b; numbers that compare equal differ by at most 10^-p, up to a relative error of 2^-20; the comparison is symmetric, reflexive and transitive where defined. Neighbouring doubles may compare unequal.", "quantifier": "all finite doubles and precisions up to 22", "why_tests_cant": "needs a bound on rounding errors for all doubles", "anchors": ["spoc/test_utils.h: about_equal"]}
{"id": "C108", "title": "Moving and scaling can be undone", "statement": "add_x, add_y, add_z and scale_x, scale_y, scale_z (and the commands of spoc_transform of the same names) move the extent of a cloud with the cloud: on a cloud of finite points, when no result overflows, the bounds of the changed coordinate are the old bounds with the same operation applied, exchanged if the factor is negative, and the bounds of the other two coordinates do not change. Adding v and then -v brings every coordinate of at most 2^500 back to within 2^-52 |x + v|; within 2^-27 if coordinate and offset are at most 2^24; exactly if both are multiples of the same power of two, at most 2^52 times it. Scaling by v and then by 1 / v as computed brings it back with a relative error of at most 2^-51. Nothing but the one coordinate changes.", "quantifier": "all vectors of records of any length, all three axes, all finite offsets and factors in the stated ranges, all schedules of the parallel loops", "why_tests_cant": "the bounds must hold for every pair of doubles, including those whose sum is rounded, and for every schedule; tests try a few values that are often exact", "anchors": ["spoc/affine.h: add_x, add_y, add_z, scale_x, scale_y, scale_z", "spoc/extent.h: get_extent", "apps/transform/transform.h: get_add_x_op, get_scale_x_op"]}
{"id": "C109", "title": "One run of spoc_filter or several, and in which order", "statement": "spoc_filter applies its options in the order keep-class, remove-class, unique-xyz, subsample, remove-coords, wherever they are on the command line. Splitting them into a group that comes earlier in that order and one that comes later, and running the program once with each group, gives what one run with all of them gives; for uncompressed files also from file to file. Any two of keep-class, remove-class and remove-coords can be exchanged; with the default seed also unique-xyz and remove-coords. The other exchanges are not harmless: there are files on which unique-xyz and keep-class, or subsample and remove-coords, give different results in the two orders.", "quantifier": "all files, all settings of the options in every number and order, all file systems that allow the runs, all numbers that the option accepts", "why_tests_cant": "the equality of two processing orders must hold for every file and every combination of options; the record that would tell them apart may have an unusual location (NaN, negative zero)", "anchors": ["apps/filter/filter.cpp: main", "apps/filter/filter.h: keep_classes, remove_classes, unique_xyz, subsample, remove_coords"]}
{"id": "C110", "title": "Being neighbours is mutual", "statement": "For clouds of finite, moderate coordinates: the distance between two points does not depend on their order and is exactly zero from a point to itself. In a radius search whose lists were not cut off at the capacity, j is reported as a neighbour of i exactly when i is reported as a neighbour of j, whatever random numbers were drawn, also between two searches with the two index lists exchanged, and every point is its own neighbour. The overload with one index list passes positions in that list, the overload with all points as neighbours passes numbers of points; both report only points within the radius and all that are closer than it by a relative margin of 2^-19. A list that was cut off need not be mutual. The random numbers are seed * 48271^(n+1) mod 2^31-1, never 0, where a seed divisible by 2^31-1 counts as 1.", "quantifier": "all clouds, index lists, radii, capacities, random sources; all seeds and positions in the random sequence", "why_tests_cant": "Mutuality is a relation between the results for every pair of points of every cloud, and must hold for every order in which the random selector visits them and for every rounding of the voxel numbers and distances.", "anchors": ["spoc/radius_search.h: radius_search (all overloads), get_neighbors, random_neighbor_selector", "spoc/point.h: distance", "spoc/voxel.h: get_voxel_indexes"]}
{"id": "C111", "title": "A debug build and a release build do the same", "statement": "For every command line, input, file system and file permissions, spoc_compress, spoc_decompress, spoc_filter, spoc_tile, spoc_merge and spoc_srs write the same bytes to standard output and to files and end with the same status whether or not they were compiled with NDEBUG: no REQUIRE contract on their way ever fires. The same holds for spoc_tool unless the command is upsample-classifications and the resolution is not a number: then the debug build stops with status -1, while the release build is undefined or copies an empty file. Every header that was read from bytes or constructed is valid (signature SPOC, WKT of at most 65535 bytes), so the contracts of spoc_transform hold too.", "quantifier": "all command lines, inputs, file systems, permissions, zlib implementations, number conversions; all byte streams read as headers", "why_tests_cant": "The test-suite runs one build type at a time on a few inputs; that a contract never fires on any input and therefore may be compiled out needs an invariant of all files the readers and tools can produce.", "anchors": ["spoc/contracts.h: REQUIRE, ENSURE", "spoc/io.h: write_spoc_file_compressed, write_spoc_file_uncompressed", "spoc/file.h: set_point_record, is_valid", "spoc/header.h: is_valid", "apps/tool/tool.h: all commands", "apps/tool/tool.cpp: main", "apps/transform/transform.h: apply"]}
{"id": "C112", "title": "The area and the volume of an extent", "statement": "For every box with finite corners and no negative side, whenever the result is finite, the area and the volume reported for it are not negative and differ from the true product of the side lengths by at most a relative 2^-50 plus an underflow term; coordinates up to 2^300 in size always give a finite result; a box inside another never has a larger area or volume, so dropping points from a cloud never increases either; a flat box has area and volume zero. An empty cloud has area +infinity and volume -infinity.", "quantifier": "all boxes with finite corners, all pairs of nested boxes, all clouds of finite points and all their sub-clouds", "why_tests_cant": "The error bound and the monotonicity must survive three or five roundings at every magnitude, including subnormal and near-overflow side lengths; a few sample boxes settle none of these.", "anchors": ["spoc/extent.h get_volume", "spoc/extent.h get_area", "spoc/extent.h get_extent"]}
{"id": "C113", "title": "What a Python program sees", "statement": "In every history of calls of the Python module, a column getter of a SpocFile returns that field of every record in order; getExtra(k) returns the k-th extra field of every record, raises for a k that is not a 64-bit unsigned number, and is undefined exactly when some record has no k-th extra field; what setWKT, setCompressed and setPointRecords set is what the getters return until it is set again, whatever else is called and however the record objects are changed afterwards; readheader of a file that was written gives the object's WKT, number of records, flag, version and number of extra fields modulo 256; an assignment to an attribute of a Header sets that attribute and no other, or raises.", "quantifier": "all states a Python program can reach, all objects, all getters, all calls in between, all attribute values", "why_tests_cant": "The aliasing and copying behaviour must hold for every interleaving of calls; the unit tests of the module make one object and read it once.", "anchors": ["spocpy/spocpy/spocpy.cpp PYBIND11_MODULE", "spocpy/spocpy/spocpy.cpp py_readheader", "spoc/file.h get_x", "spoc/file.h get_extra", "spoc/header.h header"]}
{"id": "C114", "title": "Programs that work on streams do not look ahead", "statement": "For spoc_transform, what is written for the header and for the first records of an uncompressed input, and whether and how the program fails on one of them, does not depend on the bytes that follow these records: either the header and the results of the commands on each of these records are written, in order, or the program has failed by then with the same outcome whatever follows. The example noop passes on every byte of the records it has seen whatever follows, the example stream_averaging reports the same numbers and centers for the first records whatever follows, and what generate_infinite_points has written remains a prefix of its output when it goes on.", "quantifier": "every header, every number of records up to the announced one, every list of commands, every continuation of the input (including one that is cut or malformed), every clock and every sequence of random numbers", "why_tests_cant": "A test runs the program on finitely many complete files; the claim compares all inputs that share a beginning.", "anchors": ["apps/transform/transform.h: apply", "apps/transform/transform.cpp: main", "examples/noop.cpp: main", "examples/stream_averaging.cpp: main", "examples/generate_infinite_points.cpp: main", "README.md: Streaming"]}
{"id": "C115", "title": "What does not depend on the order of the records", "statement": "For files whose coordinates are numbers other than -0, a different order of the records changes nothing in what spoc_info prints, in any format and with any sections; spoc_tile puts the same records into the same tiles; subtract-min and the class filters give the same records. Subsampling and the removal of duplicates keep the same number of points whatever the order, the seed and the random numbers. Findings: recenter depends on the order, because it adds in the order of the records, and if both zeros occur, which of them spoc_info reports depends on the order.", "quantifier": "every file, every permutation of its records, every choice of options, every seed and shuffle, every sorting function", "why_tests_cant": "All permutations of arbitrarily many records cannot be tried.", "anchors": ["apps/info/info.h: process, get_summary_string, get_class_count_map, get_metric_values", "apps/tile/tile.h: get_tile_indexes", "apps/tool/tool.h: subtract_min, recenter", "apps/filter/filter.h: keep_classes, remove_classes", "spoc/subsampling.h: get_subsample_indexes, get_unique_xyz_indexes", "spoc/extent.h: get_extent"]}
{"id": "C116", "title": "Whether the input is compressed makes no difference to what the programs compute", "statement": "Take two files with the same projection, the same records, one compressed and one not. Running the filter program on both with the same options, or the tool program with any command that changes a file, either fails in the same way on both, leaving every file unchanged, or succeeds on both, and then the two outputs hold the same projection and records, each as compressed as its input would be. Printing a field, and transferring classifications, give exactly the same result for both. The info program, with the header part switched off, prints exactly the same for any list of files and the list of their counterparts.", "quantifier": "every file content, every command line accepted by the programs, every shuffle, number reader and file system, both builds", "why_tests_cant": "It relates two runs for every file and every option; a test compares them for a few files and options only.", "anchors": ["apps/filter/filter.cpp main", "apps/filter/filter.h", "apps/tool/tool.cpp main", "apps/tool/tool.h", "apps/info/info.cpp main", "apps/info/info.h process", "spoc/file.h spoc_file::get_compressed"]}
{"id": "C117", "title": "Merging in stages is merging at once", "statement": "Merging some files, saving the result and merging it with further files gives the same projection, the same compression flag and the same records in the same order as merging all files in one run; records differ at most in the point id and in the signs of zero coordinates. When both final runs set the same non-negative point id and no coordinate is a negative zero, the two results are identical files. Without a given point id the ids differ, because they number the inputs of the last run.", "quantifier": "every non-empty choice of first and further readable files whose records together can be stored, every options of the three runs, both builds, every zlib meeting its contract", "why_tests_cant": "It relates three runs for every collection of files and every way of splitting it in two.", "anchors": ["apps/merge/merge.cpp main", "apps/merge/merge.h append", "spoc/io.h write_spoc_file", "spoc/io.h read_spoc_file"]}
{"id": "C118", "title": "What the benchmark timer measures", "statement": "A timer that was started last gives the number of whole milliseconds from that start (or from its construction) until it is asked; once stopped it gives those from the last start to the last stop, however often it was started and stopped before and whenever it is asked. Because the clock is the wall clock, setting it back can make the result negative.", "quantifier": "every history of starts and stops and every clock reading, with less than 2^63 nanoseconds in between", "why_tests_cant": "A test uses one history and a real clock; the claim is about every history and every reading.", "anchors": ["spoc/benchmark_utils.h timer::start", "spoc/benchmark_utils.h timer::stop", "spoc/benchmark_utils.h timer::elapsed_ms"]}
{"id": "C119", "title": "The input and output benchmark reads back what it writes", "statement": "Given access to its file, the benchmark of reading and writing ends with status 0. The uncompressed step reads back exactly the records written, the compressed steps write files that read back as what the compressed format keeps of the records, with the projections the program names, and the last one is what is left in the file. No other file changes. Without the right to write the file it ends with status -1 and changes nothing.", "quantifier": "every list of records with equally many extra fields that can be stored, every random engine within its ranges, every file system, both builds", "why_tests_cant": "It is a claim about every list of records and every engine; the benchmark itself checks nothing it reads.", "anchors": ["benchmarks/benchmark_io.cpp main", "benchmarks/benchmark_io.cpp benchmark_read_uncompressed", "benchmarks/benchmark_io.cpp benchmark_read_compressed", "spoc/io.h read_uncompressed_points", "spoc/io.h read_spoc_file_compressed"]}
{"id": "C120", "title": "The Gaussian test cloud", "statement": "The generator of Gaussian test clouds returns as many points as asked for. If the engine never draws zero, all coordinates are finite: x and y at most 64 times the radius (rounded up to a power of two), z at most 64 times the standard deviation. If it draws zero, which the half-open interval allows, x and y of that point are not finite. The points are not confined to the disk of the given radius, although the comment in the code says so. Any two fractions and any normal deviate for each point are given by some engine and distribution, and the point is then the one of Box and Muller: at an angle that only the second fraction decides, at a distance that only the first decides, and at a height that only the deviate decides.", "quantifier": "every number of points, radius and standard deviation up to 2^1000, every seed, every engine and C library within the stated ranges", "why_tests_cant": "A test sees the numbers of one engine; drawing zero is too rare to be seen.", "anchors": ["spoc/test_utils.h get_noisy_gaussian_point_cloud"]}
{"id": "C121", "title": "Reading a file and writing it again", "statement": "If read_spoc_file reads an uncompressed file with at least one record and the stream is still good, then write_spoc_file of the result writes exactly the bytes that were consumed; so two byte strings that are read to their end as the same uncompressed records are equal. A file without records is written with the same bytes except that the number of extra fields becomes 0. Whatever the input was, also damaged or cut off, the file that was read can be written, and the written bytes are read as that file, except for the sign of zeros in compressed files.", "quantifier": "every byte string, every file that read_spoc_file returns for it, debug and release builds, every zlib that meets its contract", "why_tests_cant": "tests start from files the library wrote; here the input is any byte string", "anchors": ["spoc/io.h: read_spoc_file, write_spoc_file, read_uncompressed_points", "spoc/header.h: read_header, write_header"]}
{"id": "C122", "title": "Filtering before or after merging", "statement": "Applying keep-class, remove-class or remove-coords to every input and merging the results gives the same file, with the same warning about the WKT, as merging the inputs and applying the filter to the result. This does not hold for unique-xyz.", "quantifier": "every list of at least two readable inputs with the same number of extra fields, every class set, axis, comparison and number, every point id and quiet option", "why_tests_cant": "quantifies over all inputs, numbers of inputs and filters", "anchors": ["apps/filter/filter.h: keep_classes, remove_classes, remove_coords, unique_xyz", "apps/merge/merge.cpp: main", "apps/merge/merge.h: append"]}
{"id": "C123", "title": "Class counts add up", "statement": "The number of points and the count that spoc_info shows for each class add up: the merged file has the sum of the counts of the inputs of spoc_merge; the tiles that spoc_tile writes have together the counts of the input; what keep-class keeps and what remove-class leaves have together the counts of the input, the listed classes entirely in the first and all others entirely in the second.", "quantifier": "every list of readable inputs with the same number of extra fields, every storable input and successful run of spoc_tile, every file and list of classes, every class label", "why_tests_cant": "quantifies over all inputs and all ways to divide them", "anchors": ["apps/info/info.h: get_class_count_map", "apps/merge/merge.cpp: main", "apps/tile/tile.h: tile", "apps/filter/filter.h: keep_classes, remove_classes"]}
{"id": "C124", "title": "Transforming before or after filtering", "statement": "Filters by class or coordinate and commands of spoc_transform that draw no random numbers and do not change the field that the filter looks at may be exchanged: transforming the filtered file gives the file that filtering the transformed file gives. With the noise commands the order matters, because the random numbers belong to the positions of the records. It also matters for replace-not on any field but the extra fields, which changes the class.", "quantifier": "every uncompressed file, every list of commands that succeeds on it, every class set, axis, comparison and number, every stod, sine, cosine and random engine", "why_tests_cant": "quantifies over all files, command lists and filters", "anchors": ["apps/transform/transform.h: apply", "apps/filter/filter.h: keep_classes, remove_classes, remove_coords"]}
{"id": "C125", "title": "Transforming or resizing before or after merging", "statement": "Running spoc_transform on every input with commands that draw no random numbers and do not name the point id, and merging the results, gives the bytes that transforming the merged file gives. Files whose records have different numbers of extra fields can be merged once resize-extra has been applied to each of them; if they could be merged before, the result is the same as applying resize-extra to the merged file.", "quantifier": "every list of at least two uncompressed files that can be stored together, every list of commands that succeeds on them, every number of extra fields, every point id and quiet option", "why_tests_cant": "quantifies over all inputs, numbers of inputs and command lists", "anchors": ["apps/transform/transform.h: apply", "apps/tool/tool.h: resize_extra", "apps/merge/merge.cpp: main"]}
{"id": "C126", "title": "The report on a tiled and merged file", "statement": "When a file whose coordinates are neither NaN nor -0 is cut into at least two tiles by spoc_tile and the tiles are merged by spoc_merge in any order, the report of spoc_info on the merged file, without the summary of the columns, is the report on the original file, as text and as JSON. In the summary as text the lines on the point ids are the only difference. If all records had the id that was given as --point-id, there is no difference at all, in any report. Without --point-id the summary of the point ids does change, so that the comparison in tests/integration/test_merge.sh holds for some files only.", "quantifier": "all storable files without NaN and -0, all directories, all command lines of spoc_tile and spoc_merge with these operands, all orders of the tiles, all report options and number formats", "why_tests_cant": "The integration test compares two summaries of one file; the claim is about every file, tile size, order of the tiles and report, and it is false for the point ids.", "anchors": ["apps/tile/tile.cpp:main", "apps/merge/merge.cpp:main", "apps/info/info.h:process", "tests/integration/test_merge.sh"]}
{"id": "C127", "title": "Classifying a subsample classifies the whole cloud", "statement": "Take an uncompressed cloud, write a subsample of it with spoc_filter --subsample=R, set the class of every record of the subsample with spoc_transform --set=c,K, and copy the classes back with spoc_tool --upsample-classifications at the same resolution R. If the filter exits with status 0 then so do the other two, they print nothing, and the result reads back as the original cloud, record for record and header for header, with the class K (the decimal K cut to an integer) in every record: no point is too far from a subsampled point to receive its class, and nothing but the class changes.", "quantifier": "every storable uncompressed file with at least one record and finite coordinates, every finite positive resolution, every order in which the subsampler visits the points (random seed), every class text that parses to a value from 0 to 2^32-1, every file system and access rights that admit the reads and writes, three different file names for the inputs", "why_tests_cant": "tests/integration/test_tool.sh runs this chain on one file and counts the classes it finds; that no point is missed has to hold for every geometry, every resolution and every random order, and depends on rounding in the voxel arithmetic of both programs agreeing.", "anchors": ["apps/filter/filter.cpp:main", "apps/transform/transform.cpp:main", "apps/tool/tool.cpp:main", "apps/tool/tool.h:upsample_classifications", "spoc/subsampling.h:get_subsample_indexes", "tests/integration/test_tool.sh"]}
{"id": "C128", "title": "The ranges that spoc_info shows", "statement": "For every column of the report but the point id, the minimum and maximum that spoc_info shows behave as ranges: those of a merged file are the least minimum and the greatest maximum of the inputs that have records; a filter can only narrow them; the range of each tile that spoc_tile writes lies within that of the input, and some tile reaches each of its two ends (as a number, because compressed tiles may show 0 for -0).", "quantifier": "every column (coordinates, class, intensity, colours, every extra field), every list of at least two readable inputs with the same number of extra fields, every filter and command sequence of spoc_filter that succeeds, every storable input and successful run of spoc_tile, files without NaN coordinates", "why_tests_cant": "quantifies over all inputs and all ways to merge, filter or divide them", "anchors": ["apps/info/info.h: get_summary_string", "apps/merge/merge.cpp: main", "apps/tile/tile.h: tile", "apps/filter/filter.h: keep_classes, remove_classes, remove_coords, unique_xyz, subsample"]}
