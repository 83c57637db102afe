{"id": "C01", "title": "Alignment arithmetic", "statement": "align_to(v, a) returns the least multiple of a that is >= v whenever a is a power of two and v+a-1 does not overflow; get_required_padding(v, a) is exactly the distance to it, is < a, and is_aligned_to agrees with divisibility; is_power_of_two accepts exactly 2^k.", "quantifier": "every 32/64-bit value and every power-of-two alignment", "why_tests_cant": "2^64 x 64 combinations; edge is at the overflow boundary", "anchors": ["includes/acl/core/memory_utils.h: is_power_of_two, is_aligned_to, align_to, get_required_padding"]}
{"id": "C02", "title": "memcpy_bits copies exactly the requested bits", "statement": "memcpy_bits(dst, dbo, src, sbo, n) makes bits [dbo, dbo+n) of dst (big-endian bit order) equal to bits [sbo, sbo+n) of src, leaves every other bit of dst unchanged, reads and writes no byte outside the two ranges, and terminates.", "quantifier": "every destination/source buffer content, every pair of bit offsets and every length", "why_tests_cant": "offsets x lengths x contents is unbounded; a frame violation shows up only when neighbours hold particular bits", "anchors": ["includes/acl/core/memory_utils.h: memcpy_bits"]}
{"id": "C03", "title": "Bit counting, scanning and byte swapping", "statement": "count_set_bits is the population count, count_leading_zeros/count_trailing_zeros return the position of the extreme set bit (32 for 0), rotate_bits_left is a cyclic rotation, and byte_swap reverses the byte order and is its own inverse, for 16/32/64-bit words.", "quantifier": "every machine word", "why_tests_cant": "2^64 inputs for the SWAR algorithms", "anchors": ["includes/acl/core/bit_manip_utils.h: count_set_bits, count_leading_zeros, count_trailing_zeros, rotate_bits_left", "includes/acl/core/memory_utils.h: byte_swap"]}
{"id": "C04", "title": "Bitsets behave as finite sets", "statement": "After any sequence of bitset_reset/set/set_range/and_not operations, bitset_test(i) answers whether i is in the abstract set the same operations describe, and bitset_count_set_bits is that set's cardinality; operations on one bit never disturb another.", "quantifier": "every bitset size, every operation history, every index", "why_tests_cant": "histories are unbounded; word-boundary interactions", "anchors": ["includes/acl/core/bitset.h: bitset_reset, bitset_set, bitset_set_range, bitset_test, bitset_count_set_bits, bitset_and_not, bitset_description"]}
{"id": "C05", "title": "The buffer hash detects every single-byte corruption", "statement": "hash32 (and hash64) of two equal-length buffers that differ in exactly one byte are different; hashing is a left fold so the hash of a concatenation is determined by the hash of the prefix and the suffix.", "quantifier": "every buffer, every position, every pair of byte values, every length", "why_tests_cant": "infinitely many buffers", "anchors": ["includes/acl/core/hash.h: hash32, hash64, hash_combine", "includes/acl/core/impl/compressed_tracks.impl.h: is_valid"]}
{"id": "C06", "title": "Header flags are independent", "statement": "Every flag/format written into the packed miscellaneous header word is read back unchanged, whatever order the setters run in, and setting one field never changes the value of another.", "quantifier": "every 32-bit prior content, every setter sequence", "why_tests_cant": "setter orders and prior contents are unbounded", "anchors": ["includes/acl/core/impl/compressed_headers.h: tracks_header"]}
{"id": "C07", "title": "Integer packing round-trips at any bit offset", "statement": "A vector packed on n bits per component and copied to an arbitrary bit offset of an arbitrary buffer is unpacked to exactly the same quantized integers, for 2, 3 and 4 components and every n the format uses, and 32-bit raw components are restored bit for bit; n=0 never reaches the unpackers.", "quantifier": "every component value, every bit offset, every surrounding buffer content, every bit width", "why_tests_cant": "23 widths x offsets x contents; boundary at 64 bits", "anchors": ["includes/acl/math/vector4_packing.h: pack_vector3_uXX_unsafe, unpack_vector3_uXX_unsafe, unpack_vector3_96_unsafe, pack_vector2_uXX, pack_vector4_uXX", "includes/acl/math/scalar_packing.h: unpack_scalarf_uXX_unsafe, unpack_scalarf_32_unsafe"]}
{"id": "C08", "title": "Normalized quantization is in range and accurate", "statement": "For every float x in [0,1] and every width n in 1..23 pack_scalar_unsigned(x,n) lies in [0, 2^n-1], and unpacking it yields a value in [0,1] within half a quantization step (plus float rounding) of x; re-packing an unpacked integer gives the same integer.", "quantifier": "every binary32 value in [0,1], every width 1..23 and every quantized integer", "why_tests_cant": "2^30 floats x 23 widths with rounding corner cases; width 24 fails", "anchors": ["includes/acl/math/scalar_packing.h: pack_scalar_unsigned, unpack_scalar_unsigned", "includes/acl/compression/impl/quantize.scalar.h: decay_vector4_uXX"]}
{"id": "C09", "title": "Interpolation keyframes are always valid", "statement": "For any sample time (clamped to [0, duration]) the two key frames chosen for interpolation are valid sample indices, adjacent (modulo wrap), in order, and the interpolation alpha is within [0,1], for both the clamp and the wrap looping policies, for clips of up to 2^22-3 samples and sample rates in [2^-100, 2^100].", "quantifier": "every sample count (up to 2^22), sample rate, sample time and policy", "why_tests_cant": "continuum of times; errors appear only where float rounding of time*rate crosses an integer", "anchors": ["includes/acl/core/impl/interpolation_utils.impl.h: find_linear_interpolation_samples_with_sample_rate, find_linear_interpolation_samples_with_duration"]}
{"id": "C10", "title": "Sampling at a key frame's time returns that key frame", "statement": "Seeking to the float time k/sample_rate with the nearest rounding policy selects exactly key frame k (as pair+alpha), for every key frame of a clip of up to 2^22-3 samples.", "quantifier": "every sample rate, every k < 2^22", "why_tests_cant": "float rounding of k/r*r over all rates", "anchors": ["includes/acl/core/impl/interpolation_utils.impl.h: find_linear_interpolation_samples_with_sample_rate, apply_rounding_policy"]}
{"id": "C11", "title": "Sample count and duration are inverse", "statement": "calculate_num_samples(calculate_duration(n, rate), rate) = n for every n >= 2 (below 2^22-2: it fails for counts past 2^24, which is refuted explicitly), and n = 0 / n = 1 are mapped through 0 and infinity.", "quantifier": "every sample count up to 2^22 and every positive normal sample rate", "why_tests_cant": "float rounding over all n and rates", "anchors": ["includes/acl/core/impl/time_utils.impl.h: calculate_num_samples, calculate_duration, calculate_finite_duration"]}
{"id": "C12", "title": "Rounding policies round", "statement": "floor gives the first key frame, ceil the second, nearest the closer one (ties up; the single float just below one half is rounded up, which is refuted explicitly), none/per_track leave alpha unchanged; applying a policy twice is the same as once; results are in [0,1].", "quantifier": "every alpha in [0,1] and every policy", "why_tests_cant": "continuum of alphas incl. predecessor of 0.5", "anchors": ["includes/acl/core/impl/interpolation_utils.impl.h: apply_rounding_policy"]}
{"id": "C13", "title": "Segmentation is a partition of the clip", "statement": "Splitting a clip's samples into segments yields consecutive non-empty segments that cover every sample exactly once, in order, each no longer than the maximum, and no segment is produced when the clip fits in one.", "quantifier": "every sample count and every valid segmenting setting (ideal >= 8, ideal <= max <= 32)", "why_tests_cant": "unbounded sample count; redistribution loop", "anchors": ["includes/acl/compression/impl/segment.transform.h: split_samples_per_segment, segment_streams"]}
{"id": "C14", "title": "Seeking finds the segment that holds the key frame", "statement": "For every key frame of a multi-segment clip whose segment settings satisfy 2*ideal <= max+1 (the defaults do), the segment search done by seek() returns the segment that actually contains the key frame and the right frame offset inside it; without that slack the search can miss, which is refuted explicitly.", "quantifier": "every sample count, every key frame, the default segmenting settings (and every valid setting)", "why_tests_cant": "the search inspects only 4 entries around an estimate; drift grows with clip length", "anchors": ["includes/acl/decompression/impl/decompression.transform.h: seek_v0", "includes/acl/compression/impl/segment.transform.h: split_samples_per_segment"]}
{"id": "C15", "title": "Stripped key frame lookup finds the nearest retained neighbours", "statement": "Given the set of retained key frames of a segment, the lookup finds the closest retained key frame at or before, and at or after, the requested one, and the storage rank of a retained key frame is the number of retained ones before it; the remapped alpha is consistent.", "quantifier": "every 32-bit retention mask (with end points retained) and every key frame pair", "why_tests_cant": "2^32 masks x 32 indices", "anchors": ["includes/acl/decompression/impl/decompression.transform.h: seek_v0"]}
{"id": "C16", "title": "Sub-track classification round-trips", "statement": "Packing default/constant/animated for every bone on 2 bits and decoding it with the word-parallel masks yields the same classification for each bone, each bone is in exactly one class, and padding entries beyond the last bone are in none.", "quantifier": "every bone count and every classification", "why_tests_cant": "3^n classifications", "anchors": ["includes/acl/compression/impl/write_sub_track_types.h: write_packed_sub_track_types", "includes/acl/decompression/impl/decompression.transform.h: unpack_default_rotation_sub_tracks, unpack_constant_rotation_sub_tracks, unpack_animated_rotation_sub_tracks"]}
{"id": "C17", "title": "Scalar tracks decompress within the requested precision", "statement": "For every valid scalar track list with finite samples (at least one), compression succeeds; playing the clip at the time k / sample_rate of any key frame k it keeps, with nearest rounding, writes every track that is not stripped once, under its output index, with every component at a float distance from the input of at most the track precision; with a precision of zero the numbers are the same.", "quantifier": "every track list (any track count, component count, values, precision, stripping and order), every key frame, every decompression setting that supports the type, every writer and every previous use of the context", "why_tests_cant": "uncountable input space; relies on encoder/decoder performing identical float arithmetic", "anchors": ["includes/acl/compression/impl/compress.scalar.impl.h: compress_scalar_track_list", "includes/acl/compression/impl/quantize.scalar.h: quantize_scalarf_track", "includes/acl/compression/impl/write_track_data_impl.h", "includes/acl/decompression/impl/decompression.scalar.h: decompress_tracks_v0"]}
{"id": "C18", "title": "Random access equals bulk decompression (scalar)", "statement": "decompress_track(i) writes exactly the value decompress_tracks() writes for track i, at every seek position and for every track; skipped tracks do not disturb the others.", "quantifier": "every compressed scalar clip, seek state, track index, skip mask", "why_tests_cant": "all mixes of constant, raw and quantized tracks", "anchors": ["includes/acl/decompression/impl/decompression.scalar.h: decompress_tracks_v0, decompress_track_v0"]}
{"id": "C19", "title": "Output index mapping is a bijection", "statement": "track_array::is_valid accepts exactly the lists whose non-stripped output indices are a permutation of 0..m-1, and on those the output mapping lists each non-stripped track exactly once at its output index.", "quantifier": "every track list", "why_tests_cant": "all assignments of output indices", "anchors": ["includes/acl/compression/impl/track_array.impl.h: is_valid", "includes/acl/compression/impl/track_list_context.h: create_output_track_mapping"]}
{"id": "C20", "title": "Hierarchy processing terminates and is parent first", "statement": "For every accepted track list, building the leaf-to-root chains terminates and, when parents precede their children in the list, the transform processing order lists every parent before its children; otherwise the order can put a child first, which is refuted explicitly. Track lists whose parent indices form a cycle are accepted by validation, which is refuted explicitly as a guarantee of termination.", "quantifier": "every parent assignment the validation accepts", "why_tests_cant": "validation accepts cyclic and unordered hierarchies that tests never feed", "anchors": ["includes/acl/compression/impl/clip_context.impl.h: initialize_clip_context, sort_transform_indices_parent_first", "includes/acl/compression/impl/track_array.impl.h: is_valid"]}
{"id": "C21", "title": "Database tiers partition the movable key frames", "statement": "Building a database assigns every movable key frame to exactly one tier, never moves the first/last key frame of a segment out of the clip, fills low then medium then high with the computed counts, and inside a tier keeps clip/segment/frame order.", "quantifier": "every set of clips, error ordering and tier proportion", "why_tests_cant": "combinatorial; greedy selection over any error values", "anchors": ["includes/acl/compression/impl/compress.database.impl.h: assign_frames_to_tier, calculate_num_movable_frames, build_database"]}
{"id": "C22", "title": "Database chunks are disjoint, ordered and consistently sized", "statement": "The chunk descriptions and the bulk data writer agree: chunks tile the bulk data at increasing offsets, each segment's data lies entirely in one chunk and no two segments overlap, and chunk headers describe exactly the segments stored in them.", "quantifier": "every list of segment data sizes and every chunk size", "why_tests_cant": "unbounded lists; two independent loops must stay in lockstep", "anchors": ["includes/acl/compression/impl/compress.database.impl.h: write_database_chunk_descriptions, write_database_bulk_data"]}
{"id": "C23", "title": "Streaming registers exactly the loaded chunks", "statement": "At every point of any history of stream_in/stream_out requests and completions in which at least one chunk is asked for, only chunks in memory are streamed out, and a tier that was partially streamed out is emptied before it is streamed in again: a segment's tier data is visible to decompression iff every byte of its chunk is held by the streamer, visible data points into the live buffer, chunks in flight are not visible, and no call reads a chunk that is not in memory. Outside of that discipline the code reads chunks that are not resident (refuted explicitly).", "quantifier": "every history of requests, completions, cancellations on any database", "why_tests_cant": "unbounded histories and completion orders", "anchors": ["includes/acl/decompression/database/impl/database.impl.h: stream_in, stream_out", "includes/acl/decompression/database/impl/database_streamer.impl.h"]}
{"id": "C24", "title": "Streaming makes progress and reports truthfully", "statement": "is_streamed_in(tier) is true iff all chunks of the tier are loaded (when no request is in flight); stream_in returns done only then; repeated stream_in/complete calls reach it in ceil(chunks/batch) steps; a request is refused while another is in flight; a streamer with nothing in flight accepts a request. Refuted explicitly: done after a partial stream out, streamed in while streaming out, zero chunks streams everything, no free request although a slot is free.", "quantifier": "every chunk count, batch size and history", "why_tests_cant": "unbounded histories; bit-scan over several words", "anchors": ["includes/acl/decompression/database/impl/database.impl.h: stream_in, stream_out, is_streamed_in, is_streaming"]}
{"id": "C25", "title": "A fully streamed database reproduces the original clip", "statement": "For every clip bound to a database, once every tier is resident the key frame data read for (segment, key frame) is the very data stored in the original compressed clip; with tiers missing, the nearest resident neighbours are used.", "quantifier": "every clip, tier assignment and key frame", "why_tests_cant": "assignment x key frame combinations", "anchors": ["includes/acl/compression/impl/compress.database.impl.h: rewrite_segment_data, write_tier_segment_data", "includes/acl/decompression/impl/decompression.transform.h: seek_v0"]}
{"id": "C26", "title": "Buffer validation accepts exactly well-formed buffers", "statement": "is_valid(true) on compressed_tracks/compressed_database succeeds iff alignment, tag, algorithm, version range and hash all match; it fails (never accepts) on any single-byte corruption of a valid buffer's hashed content, stored hash, tag or version. The size field is outside the hash, so a corrupted size is not always caught (refuted explicitly).", "quantifier": "every byte buffer", "why_tests_cant": "infinitely many buffers", "anchors": ["includes/acl/core/impl/compressed_tracks.impl.h: is_valid", "includes/acl/core/impl/compressed_database.impl.h: is_valid"]}
{"id": "C27", "title": "Seek state is a function of the last request", "statement": "After seek(t, policy) the decompressed pose depends only on the clip, the looping policy, the resident database data, t and the rounding policy, not on earlier seeks, for scalar and for transform clips; two histories where the code does not do this (the looping policy changes, or the database streams, between two identical seeks) are exhibited.", "quantifier": "every history of seek / set_looping_policy / stream calls", "why_tests_cant": "early-out cache depends on history", "anchors": ["includes/acl/decompression/impl/decompression.transform.h: seek_v0, set_looping_policy_v0", "includes/acl/decompression/impl/decompression.scalar.h: seek_v0"]}
{"id": "C28", "title": "Optional metadata is returned as supplied", "statement": "With metadata enabled, get_track_name(i), get_parent_track_index(i), get_track_description(i) return the names, parents and descriptions given at compression for output track i, for every combination of the flags; get_name() returns the list name when it and the track names are both included (with only one of the two flags it returns the empty string or a null pointer: the flags are not independent there).", "quantifier": "every track list, names, and every combination of metadata flags", "why_tests_cant": "flag combinations x names", "anchors": ["includes/acl/core/impl/compressed_tracks.impl.h: get_name, get_track_name, get_parent_track_index", "includes/acl/compression/impl/write_track_metadata.h"]}
{"id": "C29", "title": "Decompression never reads outside the compressed buffer (scalar)", "statement": "For every scalar clip produced by compression and every history of initialize / relocated / set_looping_policy / seek calls on such clips, every load done by those calls and by decompress_tracks / decompress_track lies inside the allocated buffer, for every seek time (NaN included when times are clamped, times inside the clip otherwise).", "quantifier": "every scalar clip made from at least one sample, every history of calls, every track index and writer", "why_tests_cant": "over-reads depend on sizes at the tail of the buffer", "anchors": ["includes/acl/compression/impl/compress.scalar.impl.h: compress_scalar_track_list", "includes/acl/decompression/impl/decompression.scalar.h", "includes/acl/math/vector4_packing.h"]}
{"id": "C30", "title": "Settings validation is exactly the documented rules", "statement": "compression_settings / compression_database_settings::is_valid accept precisely the documented ranges (NaN and infinities rejected), and whatever the accepted proportions the tier frame counts derived from them never exceed the number of movable key frames.", "quantifier": "every settings value", "why_tests_cant": "floats incl. NaN", "anchors": ["includes/acl/compression/impl/compression_settings.impl.h: is_valid, get_hash"]}
{"id": "C31", "title": "Splitting bulk data preserves the database", "statement": "split_database_bulk_data of an inline database produces a database and two bulk buffers whose bytes are exactly the original's, with sizes adding up and hashes matching; stripping a tier of an inline database removes exactly that tier (stripping an already split database is refuted explicitly).", "quantifier": "every inline database", "why_tests_cant": "all sizes/contents", "anchors": ["includes/acl/compression/impl/compress.database.impl.h: split_database_bulk_data, strip_database_quality_tier"]}
{"id": "C32", "title": "Streaming requests cannot be completed twice", "statement": "A request id handed out by the streamer can be completed or cancelled exactly once; later (stale or duplicate) calls with the same id have no effect on the streaming state, for any history with fewer than 2^32 reuses of a slot.", "quantifier": "every request history and every order of completion calls", "why_tests_cant": "histories unbounded; ids are recycled", "anchors": ["includes/acl/decompression/database/impl/database_streamer.impl.h: complete, cancel, build_request"]}
{"id": "C33", "title": "Looping optimisation preserves the clip", "statement": "When a scalar clip is detected as looping (optimization enabled, clamping, every track's last sample within its precision of the first) its last sample is dropped, the clip wraps and its duration is unchanged; sampling it at the time of the dropped sample returns the first one, itself within precision of the dropped one. Otherwise samples, policy and duration are kept.", "quantifier": "every looping clip", "why_tests_cant": "all clips/times", "anchors": ["includes/acl/compression/impl/optimize_looping.scalar.h: optimize_looping", "includes/acl/core/impl/compressed_tracks.impl.h: get_duration"]}
{"id": "C34", "title": "Constant sub-track data round-trips", "statement": "The constant rotations written swizzled in groups of four and read back by the decompression cache yield the original per-bone rotation components for every bone in order, incl. the partial last group; translations and scales as well.", "quantifier": "every bone count and every value", "why_tests_cant": "group boundary combinations", "anchors": ["includes/acl/compression/impl/write_stream_data.h: write_constant_track_data", "includes/acl/decompression/impl/constant_track_cache.transform.h"]}
{"id": "C35", "title": "Animated sub-track data round-trips", "statement": "Animated samples written group by group at each key frame are read back by the animated cache at the bit offsets computed from the per sub-track formats, for every key frame, sub-track and mix of bit rates (including constant and raw).", "quantifier": "every number of animated sub-tracks, bit-rate assignment and key frame", "why_tests_cant": "bit-rate mixes are exponential", "anchors": ["includes/acl/compression/impl/write_stream_data.h: write_animated_track_data, write_format_per_track_data", "includes/acl/decompression/impl/animated_track_cache.transform.h"]}
{"id": "C36", "title": "Bit rate format byte round-trips", "statement": "The per sub-track format byte (number of bits with 32 encoded as 31) identifies the bit rate uniquely and decodes to its number of bits.", "quantifier": "every bit rate", "why_tests_cant": "finite but cross-version; composition with the reader", "anchors": ["includes/acl/compression/impl/write_stream_data.h: write_format_per_track_data", "includes/acl/core/impl/variable_bit_rates.h"]}
{"id": "C37", "title": "Key frame stripping keeps the clip playable", "statement": "Whatever the threshold/proportion, stripping removes a prefix of the stripping order and nothing else; it never removes the first or last key frame of a segment; the retained mask, the counts and the data sizes agree; and the order is greedy: inside a segment each key frame removed has the smallest interpolation error at that point, and over the clip the next key frame is the segment head with the smallest error. This holds for error metrics whose errors are below infinity (an infinite error is an out of bounds write: refuted).", "quantifier": "every error table and setting", "why_tests_cant": "all error orderings", "anchors": ["includes/acl/compression/impl/keyframe_stripping.h: strip_keyframes", "includes/acl/compression/impl/quantize.transform.h: find_contributing_error, sort_contributing_error"]}
{"id": "C38", "title": "Allocator bookkeeping is exact", "statement": "The ANSI allocator's count of live allocations equals allocations minus frees of non-null pointers over any history and the destructor's leak check fires exactly when it is non-zero.", "quantifier": "every allocation history", "why_tests_cant": "histories unbounded", "anchors": ["includes/acl/core/ansi_allocator.h"]}
{"id": "C39", "title": "Decompression restores the floating point environment", "statement": "decompress_tracks and decompress_track leave the floating point exception environment as they found it, on every path, for every clip and history of calls; the path of decompress_track that returns early for a track whose three sub-tracks are all default does not, which is refuted explicitly.", "quantifier": "every clip, every track index, every history of calls", "why_tests_cant": "depends on the path taken, which depends on the clip contents and on the requested track", "anchors": ["includes/acl/decompression/impl/decompression.transform.h:decompress_track_v0", "includes/acl/core/floating_point_exceptions.h"]}
{"id": "C40", "title": "decompress_track and decompress_tracks agree", "statement": "After any history of calls on a compressed transform clip, decompress_track(i) hands the writer the same default, constant or mixed samples of track i as decompress_tracks, except that a rotation component that is a negative zero of a raw sample may lose its sign in decompress_tracks.", "quantifier": "every clip, history of calls, writer and track index", "why_tests_cant": "two different unpacking paths (groups of four, single) over every mix of bit rates and of constant and default sub-tracks", "anchors": ["includes/acl/decompression/impl/decompression.transform.h: decompress_tracks_v0, decompress_track_v0", "includes/acl/decompression/impl/animated_track_cache.transform.h: unpack_rotation_group, unpack_rotation_within_group"]}
{"id": "C41", "title": "Compressed transform clips play back their key frames", "statement": "Packing the quantized streams of a transform clip always succeeds, whatever uninitialized local buffers contain; then initializing a context on the result and seeking any time selects the key frames around it (or the nearest remaining ones if key frames were stripped), and decompression hands the writer every sub-track exactly once, with the samples of these key frames.", "quantifier": "every set of streams, segmentation, bit rates, output order, metadata flags, looping policy and time", "why_tests_cant": "unbounded clips; every combination of bit rates, segments, groups and stripped key frames", "anchors": ["includes/acl/compression/impl/compress.transform.impl.h", "includes/acl/compression/impl/write_stream_data.h", "includes/acl/decompression/impl/decompression.transform.h"]}
{"id": "C42", "title": "Transform playback stays in the buffer", "statement": "On a compressed transform clip, every history of initialize, seek (any time when clamped, NaN included), set_looping_policy and relocated calls, followed by decompress_tracks or decompress_track for any index and any writer, reads only bytes of the compressed buffer.", "quantifier": "every clip, history, time, writer and index", "why_tests_cant": "unsafe loads past the end of groups depend on the clip and on the history", "anchors": ["includes/acl/decompression/impl/decompression.transform.h", "includes/acl/decompression/impl/constant_track_cache.transform.h", "includes/acl/decompression/impl/animated_track_cache.transform.h"]}
{"id": "C43", "title": "Transform samples come back within the quantization error", "statement": "Compressing a transform clip (whatever bit rates the optimizer chose) succeeds, and after any history of calls that ends with a seek, decompress_tracks and decompress_track show, for every output bone and kind of sub-track: the only sample of a constant sub-track bit for bit; the raw samples bit for bit where the bit rate is raw or the format is full precision; elsewhere components within half a quantization step of the segment range (at most the width of the samples in the segment plus 1/80 of that in the clip) plus the rounding of binary32 arithmetic, and, at bit rate 0, the first sample of the segment within half a step of 16 bits.  At the time of a key frame, with the nearest rounding policy, that key frame is shown.", "quantifier": "every clip, split in segments, bit rates, source samples up to 1e10, contents of uninitialized memory, history of calls and time", "why_tests_cant": "the error depends on the samples, on the bit rates and on the padding of two nested ranges; tests see a few clips", "anchors": ["includes/acl/compression/impl/normalize.transform.h: extract_segment_bone_ranges, normalize_clip_streams, normalize_segment_streams", "includes/acl/compression/impl/segment.transform.h: segment_streams", "includes/acl/compression/impl/quantize.transform.h: quantize_fixed_rotation_stream, quantize_variable_translation_stream", "includes/acl/compression/impl/compress.transform.impl.h: compress_transform_track_list", "includes/acl/decompression/impl/animated_track_cache.transform.h"]}
{"id": "C44", "title": "Transform tracks come back: what is dropped, held and animated follows from the error metric", "statement": "Compressing a list of transform tracks fails with an error when a sample is not finite and otherwise succeeds. A sub-track is held at its first sample exactly when that sample can replace all the others within the precision of the track, and dropped when the default value can too (bit exact equality when the format is full precision); the last sample is removed and the clip wraps exactly when loops are optimized and it matches the first within the precision. After any history of calls that ends with a seek, decompress_tracks and decompress_track show the default value of dropped sub-tracks, the first sample of held ones bit for bit, and the others as quantization keeps them (C43), under the output indices of the tracks. When a clip with scales claims trivial default values, they are.", "quantifier": "every track list, format, error metric and quaternion library, bit rates, stripped key frames, contents of uninitialized memory, history of calls and time", "why_tests_cant": "whether a sub-track is compacted depends on every sample and on a user-provided metric, and a mistake in one flag shifts all later data of the buffer; tests see a few clips and one metric", "anchors": ["includes/acl/compression/impl/compress.transform.impl.h: compress_transform_track_list, has_trivial_default_values", "includes/acl/compression/impl/clip_context.impl.h: initialize_clip_context", "includes/acl/compression/impl/optimize_looping.transform.h: optimize_looping, is_clip_looping", "includes/acl/compression/impl/convert_rotation.transform.h: convert_rotation_streams", "includes/acl/compression/impl/compact.transform.h: compact_constant_streams, are_samples_constant", "includes/acl/compression/impl/track_stream.h: get_sample_clamped, strip_last_sample"]}
{"id": "C45", "title": "Compression is deterministic", "statement": "Compressing the same transform tracks with the same settings always gives the same bytes (including the hash and the optional metadata): nothing of what memory contained before compression, neither the uninitialized local buffers of the writers nor the contents of new allocations (the padding and the unused bits of the quantized streams), can be observed in the compressed buffer.", "quantifier": "every track list, format and legal outcome of the bit rate search, and every pair of contents of uninitialized memory", "why_tests_cant": "a leak of uninitialized memory shows only when memory happens to contain something else; allocators often return zeroed pages, and a leak may be limited to a partial group or the last bits of a segment", "anchors": ["includes/acl/compression/impl/compress.transform.impl.h: compress_transform_track_list", "includes/acl/compression/impl/write_stream_data.h: write_constant_track_data, write_animated_track_data", "includes/acl/compression/impl/write_range_data.h: write_clip_range_data", "includes/acl/compression/impl/quantize.transform.h: quantize_fixed_rotation_stream, quantize_variable_rotation_stream", "includes/acl/compression/impl/track_stream.h: track_stream, k_padding"]}
{"id": "C46", "title": "A clip bound to a database plays the original key frames", "statement": "build_database rewrites each compressed clip (its least important key frames move to the database) without any fault. A context initialized with such a clip and its database shows, in every state the database can get in (whatever was streamed in and out, whatever the memory of what is not streamed in contains) and after any calls, key frames of the original clip, unchanged: the closest ones on both sides of the sought time among those that stayed in the clip and those of a tier whose chunk is resident, with the alpha of that position between them. Once everything is streamed in, decompress_tracks and decompress_track write what they write for the original clip, with the same alpha. The names, the parents and the descriptions of the clip are kept.", "quantifier": "every compressed clip with contributing error metadata, every legal database input, every reachable streaming state and content of memory that is not streamed in, every history of seeks, policy changes and relocations, every writer", "why_tests_cant": "it ranges over all clips, all ways to distribute their key frames over three tiers, and all interleavings of streaming requests with seeks; a wrong offset or bit set shows only for particular sets of missing key frames", "anchors": ["includes/acl/compression/impl/compress.database.impl.h: build_compressed_tracks, rewrite_segment_headers, rewrite_segment_data, get_metadata_track_list_name_size", "includes/acl/decompression/impl/decompression.transform.h: initialize_v0, relocated_v0, seek_v0, decompress_tracks_v0, decompress_track_v0", "includes/acl/core/impl/compressed_headers.h: stripped_segment_header_t, tracks_database_header, database_runtime_segment_header"]}
{"id": "C47", "title": "The search for bit rates ends with rates that can be written", "statement": "When transform tracks are compressed with variable formats, the bit rates the compressor settles on are legal: one from 0 to 24 for each animated sub-track (never 0 when the clip is a single segment), none for the others, and none below that of the local space search, whatever the error metric returns. In local space they are the smallest that bring the error below the precision. The search ends if the error metric never returns NaN (and it may not if it does: compress_track_list then never returns), and its result does not depend on what allocated memory held. With full precision rotations, the last transform is either below its precision or has every sub-track of its chain at the highest rate. Hence compression with the rates the search finds succeeds and its output plays back the tracks (C44), for every error metric that never returns NaN.", "quantifier": "every error metric (every function of the bit rates, NaN included where said), precision, hierarchy, compression level, number of transforms and of segments, and every content of the memory that is allocated", "why_tests_cant": "the error metric is a user class and the search a hill climb driven by what it returns: termination and legality must hold for every function, of which a test sees one; that the local search is the smallest ranges over 15625 combinations per transform", "anchors": ["includes/acl/compression/impl/quantize.transform.h: find_optimal_bit_rates, calculate_local_space_bit_rates, increase_bone_bit_rate, calculate_bone_permutation_error, initialize_bone_bit_rates, increment_and_clamp_bit_rate", "includes/acl/compression/impl/transform_bit_rate_permutations.h: k_local_bit_rate_permutations_1_dof, k_local_bit_rate_permutations_2_dof, k_local_bit_rate_permutations_3_dof", "includes/acl/compression/transform_error_metrics.h: itransform_error_metric"]}
{"id": "C48", "title": "The measured compression error of scalar tracks is the worst one", "statement": "calculate_compression_error, given a scalar track list and a decompression context that plays the clip compressed from it, returns the largest error over every sample of every track that is not stripped: the largest distance between a component of the sample and what playing the clip at the time of that sample (nearest) gives; together with the first sample time and the first track that have it. What the context was used for before, and the seeks since initialize, do not matter. No error is above the precision of its track, except maybe at the last sample of a clip that loops, which may be up to twice the precision.", "quantifier": "every valid scalar track list (types, samples, output order, precision), compression settings and looping policy, clamping decompression settings, history of the context before, and seeks since initialize", "why_tests_cant": "the claim ranges over all float inputs, and says of a measure that it misses no sample of any track, whatever state the context was left in; a test compares a few clips with the same measure", "anchors": ["includes/acl/compression/impl/track_error.impl.h: calculate_compression_error, calculate_scalar_track_error, get_scalar_track_error", "includes/acl/compression/impl/track_array.impl.h: sample_tracks", "includes/acl/core/impl/debug_track_writer.h: debug_track_writer"]}
{"id": "C49", "title": "Sampling raw track arrays", "statement": "track_array::sample_tracks reads inside the samples whatever the time is (NaN and infinities included), writes every track once and in order, and every value is the interpolation of the samples at the same two key frames, those that surround the time clamped to the clip, with the alpha rounded by the policy of that track; sample_track writes what sample_tracks writes for its track. At the time of a key frame the nearest policy gives that key frame, and past the last one the first when the array wraps.", "quantifier": "every valid array with samples, whatever the type of the tracks and their interpolation, every float time, looping policy, rounding policy and writer", "why_tests_cant": "ranges over all float times and sample rates; the bulk function looks its alpha up in a table and the single track one computes it with another policy", "anchors": ["includes/acl/compression/impl/track_array.impl.h: sample_tracks, sample_track, get_finite_duration", "includes/acl/core/sample_rounding_policy.h: sample_rounding_policy"]}
{"id": "C50", "title": "Object space poses follow the hierarchy, and the measured error of transforms is the worst one", "statement": "local_to_object_space, given transforms in any order where every parent comes before its children, computes for each of them its own transform times the object space transform of its parent, whatever the output memory held, and leaves the others alone. The list of all transforms and the chain of a transform are such orders when the parents of a track list come before their children. Then calculate_compression_error of transform tracks returns the largest error the metric gives for the object space transforms of the two poses over all transforms and key frames, with the first time and transform that have it, and does not depend on what allocated memory held. (With parents after their children, which validation accepts, it does.)", "quantifier": "every hierarchy, every transform type and product, every order, every pose, every error metric that returns no negative value and no NaN, every content of the memory that is allocated", "why_tests_cant": "whether a result depends on uninitialized memory or on the order of the tracks cannot be seen in runs; the claim ranges over all hierarchies and metrics", "anchors": ["includes/acl/compression/transform_error_metrics.h: local_to_object_space, local_to_object_space_no_scale", "includes/acl/compression/impl/track_error.impl.h: calculate_transform_track_error"]}
{"id": "C51", "title": "Pre-processing scalar tracks stays within the precision", "statement": "pre_process_track_list on an array of scalar tracks: when the first and last samples of every track match within the precision of the track, every last sample becomes the first one; then every track whose samples all match each other within its precision becomes its first sample; nothing else changes. So every sample moves by at most the precision of its track, first samples, names and descriptions stay, and pre-processing again changes nothing. Lossless pre-processing changes nothing at all. (As the code is, this needs a track to sanitize not to start above all its other samples: a track that starts with a spike becomes the spike.)", "quantifier": "every array of scalar tracks of any number of tracks, samples and components, every precision, every combination of actions and policies", "why_tests_cant": "which samples are left out of the comparison shows only on inputs of the right shape, and the bound is about all of them; a test on smooth tracks never starts with a spike", "anchors": ["includes/acl/compression/impl/pre_process.impl.h: pre_process_track_list", "includes/acl/compression/impl/pre_process.scalar.h: pre_process_optimize_looping_scalar, pre_process_sanitize_constant_tracks_scalar"]}
