# Formal model of nfrechette/acl in Rocq (Coq 8.16.1)

## 1. Shape

`/verif/rocq/theories` holds an executable Gallina model of ACL's integer, bit, float and state-machine code, function by function
(integers: `N` modulo 2^32 / 2^64; memory: byte lists; floats: Flocq `Binary`/`Bits` binary32, round to nearest even).  Each definition
cites the file and lines of `/repo/includes/acl` it models and says what it simplifies.

* Model files: no theorems, only definitions (`MemoryUtils`, `BitManip`, `Bitset`, `Hash`, `Headers`, `Packing`, `Quant`, `Interp`,
  `Segment`, `SubTracks`, `Strip`, `StripOrder`, `TrackArray`, `Hierarchy`, `ScalarEnc`, `ScalarDec`, `ScalarMeta`, `DbTiers`, `DbBuild`,
  `ClipRewrite`, `DbBuildTop`, `DbLayout`, `DbStream`, `DbStreamSys`, `Settings`, `TransMeta`, `TransEnc`, `TransFile`, `TransDec`,
  `TransSeek`, `Alloc`, `FpEnv`, ...).
* `*Spec.v`: the vocabulary of the statements, independent of the model's helpers.
* `*Facts.v` and the other files: proofs.
* `Prop_*.v`: the property theorems `Cxx_...`, `Print Assumptions` for each, and concrete examples that meet the hypotheses.
  A theorem whose name ends in `_refuted` proves that the English property fails of the code at the stated point.

An access out of a buffer, a shift by too many bits, a cast out of range, a failed assertion that leads to undefined behaviour is the
distinct outcome `UB`; every theorem that concludes `= Ok _` therefore also says that none happens.

## 2. Plan per property

| id | what is modelled | how it is proved |
|----|-------|-------|
| C01 | `align_to` etc. on N modulo 2^32/2^64 | `N.land`/`N.lnot` to div/mod lemmas |
| C02 | `memcpy_bits` loop on byte lists with fuel | loop invariant on the bit view of both buffers |
| C03 | SWAR functions | lane lemmas (popcount of 2/4/8-bit lanes), no sampling |
| C04 | bitsets as lists of words | refinement to predicates on indices, induction on operation histories |
| C05 | fnv1a fold | odd multiplier invertible modulo 2^w |
| C06 | packed header words | `N.testbit` extensionality, induction over histories of setters |
| C07 | pack/unpack on byte lists | bit view of buffers (C02) |
| C08 | quantization in binary32 | rounding error bounds |
| C09-C12 | time to key frames in binary32 | monotonicity of rounding, exactness below 2^24 |
| C13 | `split_samples_per_segment` | loop invariant |
| C14 | segment search of `seek` | arithmetic on the split |
| C15 | key frame masks of stripped segments | testbit characterisations of clz/ctz/popcount |
| C16 | packed sub-track types | per word bit reasoning + induction |
| C17, C29, C33 | scalar encoder and decoder end to end | composition of C02/C07/C08; layout lemmas over the whole buffer |
| C18 | scalar decompression | simulation between the two loops, any buffer |
| C19, C20 | track validation, output map, hierarchy | pigeonhole, fuelled chain walk |
| C21, C22, C25, C31 | database: tiers, chunks, clip rewriting, split, strip | invariants of the greedy loop / chunk loop |
| C23, C24, C32 | streaming state machine | invariant over histories of calls and completions |
| C26, C28 | validation, metadata | decision procedure equals spec |
| C27 | seek cache, scalar and transform | refinement to a seek without cache; `_refuted` histories |
| C30 | settings, arguments of build_database | decision rules |
| C34-C36, C40-C42 | transform compression from quantized streams to buffer, and playback | writers and readers refined to one layout spec (`TransSpec`), groups of four by `chunk4` induction, ring buffers of the two caches by invariants, then histories |
| C37 | keyframe stripping order | invariants of the greedy removal |
| C38 | ansi_allocator under interleavings | invariant over steps |
| C39 | MXCSR save/restore of the decompression functions | every path enumerated |
| C43 | range reduction, segmenting and quantization of the transform streams, then C34, C35 and C41 | per component error bound (real analysis over Flocq) composed with the decoder and the histories |
| C44 | transform track list to buffer: finiteness, normalization, loop optimization, rotation conversion, constant and default sub-tracks, order, then C43 | the compaction refined to a declarative rule on the error metric (`fate_ok`), any RTM functions and any metric; composed with C43 |
| C45 | the contents of uninitialized memory are arguments of the models of C34-C36, C41, C43, C44 | two runs related: the writers' outputs are functions of the samples (C34-C36 lemmas), the animated bits are all determined by `stored_at` plus `only_changed`; induction on the segments |
| C46 | binding a compressed clip to a database (`build_compressed_tracks`): the whole rewritten buffer, its metadata, and what a context finds in the streaming states of C23 | the rewritten clip refined to the layout of C41 (`view`), with each key frame either in the clip or in the bulk data of a tier (C25, `word_place`); seek over the three bit sets (C24); histories with a database state per call; fully streamed by uniqueness of the position and exactness of the recovered alpha |
| C47 | the search for bit rates (`find_optimal_bit_rates`) over an arbitrary error function: local space permutations, the climb over permutations of increments (`std::next_permutation`), the widening phase, maxing out | invariant "no rate goes down" through all phases; optimality of the local search by induction over the permutations sorted by size; termination by the lexicographic value of the permutation, the sum of the rates, and one pass of the widening phase when no error is NaN (`RateFacts`, `RateLocal`, `RateEnds`); composition with C44; refutation with a NaN error |
| C48 | `calculate_compression_error` of a scalar list and a context: sampling of the raw tracks, seek and decompression at each sample time, the largest component distance (`TrackError`) | invariant of the loop "best of what was visited, first of the equals"; the contexts reached by seeks decompress what one `play` gives (C27) and stay defined (C29); values by C17's facts of the clip; refutations for looping clips and for lists without outputs |
| C49 | `track_array::sample_tracks`, `sample_track` for any sample type and interpolation (`Sampling`) | induction over the tracks, on top of C09-C12's facts of the key frame search; the scalar instance is what C48 measures against |
| C50 | `local_to_object_space` over an arbitrary transform type and product; `calculate_transform_track_error` over arbitrary poses and metric, with its two object space buffers kept between samples (`ObjectSpace`) | invariant: what was processed holds the object space transform, defined by induction over the hierarchy; sorted lists closed under parents are such orders (C20 for chains); best-so-far invariant as in C48; refutation with a parent after its child |
| C51 | `pre_process_track_list` and its two scalar actions, function by function over the raw samples (`PreProcess`) | the minimum and maximum folds bound, and are attained by, the samples; rounding is monotone, so the extent is within the precision exactly when every two samples are; relations `loop_step` and `constant_step` say what each action does, the precision bound and idempotence follow from them |

## 3. Trusted base

* Coq's kernel (8.16.1).  No plugin, no axiom of our own, no disabled check.
* The reading of `/repo` into Gallina: nothing here runs the C++.
* RTM (the math library) is not in the sandbox.  The RTM functions used are modelled from their documented meaning:
  `scalar_floor`, `scalar_ceil`, `scalar_round_symmetric(x) = x>=0 ? floor(x+0.5) : ceil(x-0.5)`, `scalar_clamp`,
  `scalar_lerp(a,b,t) = (a - a*t) + b*t`, `vector_mul_add(a,b,c) = a*b + c` (two roundings, no FMA), per-lane
  `vector_min/max/sub/div`, `vector_load1/2/3` zero the unused lanes.
* Floats: binary32, round to nearest even, no flush to zero, no x87 excess precision, one NaN payload per operation.
* `Print Assumptions`: theorems that do not touch Flocq are closed under the global context.  Theorems over binary32
  depend on the axioms of Coq's standard library real numbers (`ClassicalDedekindReals.sig_forall_dec`,
  `ClassicalDedekindReals.sig_not_dec`, `FunctionalExtensionality.functional_extensionality_dep`) and
  `Classical_Prop.classic` (used by Flocq's proofs).  No other axioms.  The lists are printed by the build, per theorem.

### Modelled
core/: memory_utils, bit_manip_utils, bitset, hash, variable_bit_rates, track packing (track_writer side of quantization), interpolation_utils,
compressed_tracks / compressed_database headers and validation, metadata, ansi_allocator, floating point exceptions.
compression/: segmenting, keyframe stripping and contributing error order, scalar compression end to end, transform compression from the
track list to the finished buffer (validity of the samples, loop optimization, rotation conversion, constant and default sub-tracks,
clip and segment ranges, the search for bit rates over arbitrary error functions, quantization at the chosen bit rates, constant,
animated, format, range data, segment headers, metadata, hash), settings, track
validation, output order, bone chains, database build / split / strip.
decompression/: scalar context, transform context (initialize, relocated, set_looping_policy, seek with and without stripped key
frames and database, both caches, decompress_tracks, decompress_track), database context (streaming).
The sampling of raw track arrays; the measure of the compression error of scalar tracks (a raw list against a context), and of transforms (two sources of poses, an arbitrary error metric, no additive base).

### Not modelled
* RTM itself, hence: quaternion conversions, the reconstruction of w, normalization and the final interpolation.  A mixed sample is the
  event `OMix policy a b`: the components decoded at both key frames, together with `x_alpha`.
  In C44 RTM's quaternion functions are arguments: any functions; the only assumption is that normalization gives four components, at most
  1e10 when finite.
* The error metric (a class of the user, with the shell distances and the additive base): any functions in C44.
* The error functions the search for bit rates calls (quantize.transform.h:674-867) and the contributing error of each key frame: parameters,
  any functions in C47.  C34-C36 and C40-C46 hold for every legal outcome of the search, and C47 shows its outcomes to be legal.
* The choice of the key frames to strip from their contributing errors is modelled (C37), the errors are parameters.
* SIMD variants: one scalar reading of each, in the order of the non-SIMD path; FMA contraction.
* Debug streamers' threads (`debug_database_streamer`), `io/` (clip reader and writer), tools, conversions of raw track arrays.
* Alignment of pointers, `const`, allocation failure in the compressors.

## 4. Findings (what the code does not do)

1. `stream_out` unloads leading chunks while `stream_in` assumes that the loaded chunks are a prefix (C24 refuted).
2. `num_chunks_to_stream = 0` wraps and streams everything (C24 refuted).
3. The request ring reports full although slots are free (C24 refuted).
4. Cancelling the first stream in leaves the bulk data pointer null while the streamer may have allocated.
5. `relocated(db)` sets the bulk data from the database (null when not inline) even for streaming contexts.
6. `database_context::contains` underflows for zero clips or segments.
7. `is_streamed_in` is true while a stream out is in flight (C24 refuted).
8. Default `stream_out` on a partially streamed tier reads the headers of chunks that are not resident (C23 refuted).
9. The conversion of metadata of versions up to 9 never sets `segment_index`.
10. `strip_database_quality_tier` on a database that is not inline (C31 refuted).
11. Segments larger than a chunk are only asserted against (C22 refuted).
12. An infinite or NaN metric error writes out of bounds in `find_contributing_error` (C37 refuted).
13. The frame assignment context of clips older than v02_01_99_2 never stores the keyframe metadata (C21 refuted).
14. `split_compressed_database_bulk_data` calls `memcpy(nullptr, ..., 0)` for an empty tier.
15. The hash check of `is_valid` trusts the unprotected size field (C26 refuted); `make_compressed_*` without an error pointer validates nothing.
16. Scalar compression never sets the contributing error offset: `build_database` accepts scalar clips (C30 refuted).
17. Seeking again misses a change of the looping policy and, for transforms, data streamed in or out (C27 refuted; after a stream out the
    context still points to the freed data).
18. `get_name` tests the wrong offset (C28 refuted).
19. Scalar quantization loads the precision in lane x only: the other lanes must be exact.
20. The size of the animated data of scalar clips is computed in bits in 32 bits; (28) so is that of transform segments.
21. Scalar tracks with zero samples and a huge precision read a sample that is not there (C29 refuted).
22. `compress_scalar_track_list` never validates its settings.
23. Default settings with raw formats fail because of `strip_trivial`.
24. `get_clip_range_data_size` counts stripped bones, `write_clip_range_data` does not write them.
25. Raw rotations lose the sign of a zero in `decompress_tracks`, not in `decompress_track` (C40), which ignores `skip_track_*`.
26. `decompress_track` does not restore the floating point environment when the three sub-tracks are default; restoring clears the sticky
    flags of the caller (C39 refuted).
27. `write_clip_range_data` reads the first bone even when there is none.
29. `ansi_allocator`: a size near 2^64 wraps (C38 refuted); failed allocations count as leaks.
30. `calculate_track_range` starts from +-1e10: the range of values that are all larger is wider than the values (C43 assumes at most 1e10).
31. `has_trivial_default_values` for additive1 clips with scales: `else if (!all_scales_one)` also runs when all scales are zero, so the
    flag is never set (C44_additive1_defaults_are_never_trivial).
32. `has_trivial_default_values` does not look at the default scales when every scale sub-track is a default one: a clip whose scales are
    all 2 by default claims trivial default values and a default scale of 1 (C44_trivial_without_scales_refuted).
33. A default rotation with a negative w: once it replaces a sub-track, formats without w read it back with `quat_from_positive_w`,
    another rotation, when the error of the translations and of the scales is measured (`viewed` in TransListSpec.v).  Sub-tracks are
    compacted one after the other: each step is within the precision, the sum of them may not be (C44 says what is guaranteed).
34. The search for bit rates never ends with an error metric that returns NaN (C47_the_search_may_not_end): in the third phase of `find_optimal_bit_rates`
   (quantize.transform.h:1403-1475) a NaN error leaves the inner loop without counting the transform as maxed out, its rates and the error are restored, and the outer loop starts
   again in the same state. One transform, an error above the precision with the rates of the local space search and NaN with any larger ones, is enough.
35. The measured error of a scalar clip that loops can be above the precision of the track (C48_error_above_the_precision_refuted): the last sample is dropped because it is
   within the precision of the first one, and is measured against what the first one is decompressed to, itself within the precision: up to twice the precision.
36. The measured error of a scalar list whose tracks are all stripped is -1, of the invalid track index (C48_no_error_refuted), where a list without samples gives 0.
37. `calculate_compression_error` does not see NaN errors: `max_error > result.error` is false for them (C48_nan_is_ignored).
38. `calculate_compression_error` calls `has_database()` and `has_stripped_keyframes()` on the scalar clip (track_error.impl.h:456), which both assert that the tracks are
   transforms (compressed_headers.h:119, :123); without asserts they read bits 8 and 10 of the packed header, which are zero in scalar clips.
39. `calculate_transform_track_error` converts the transforms to object space in the order of the tracks (track_error.impl.h:267-273, :355-356), and `track_array::is_valid` accepts parents that
   come after their children: the parent's object space transform is then read before it was written, from uninitialized memory for the first sample and from the previous sample for
   the others (C50_parent_after_child_refuted: an error between two equal clips that depends on the memory).
40. `pre_process_sanitize_constant_tracks_scalar` starts its maximum at the last sample and its loop at the second one (pre_process.scalar.h:89-97), so the first sample is never part of the maximum: a
   track that starts above all its other samples is taken for constant when those are, and all its samples become the first one, however far that is (C51_constant_tracks_refuted: 1, 0, 0 becomes 1, 1, 1
   with a precision of a half). It is also the one case where pre-processing twice is not known to be pre-processing once.
