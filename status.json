{
 "C08": {
  "status": "proved",
  "note": "n = 1..23, every finite x in [0,1] (signed: [-1,1]); C08_24_bits_refuted shows the bound is sharp."
 },
 "C09": {
  "status": "proved",
  "note": "sample counts below 2^22-2, rates/durations in [2^-100,2^100]; any non-NaN time (seek clamps)."
 },
 "C10": {
  "status": "proved",
  "note": "every key frame, clamp and wrap, counts below 2^22-2, rates in [2^-100,2^100]."
 },
 "C11": {
  "status": "proved",
  "note": "counts below 2^22-2; C11_large_counts_refuted: fails past 2^24."
 },
 "C12": {
  "status": "proved",
  "note": "nearest is right for every float but one: C12_nearest_refuted shows 0x3EFFFFFF (largest float below 1/2) rounds up."
 },
 "C14": {
  "status": "proved",
  "note": "hypothesis 2*ideal <= max+1 (met by the default settings); C14_no_slack_refuted shows the search misses without it."
 },
 "C20": {
  "status": "proved",
  "note": "parents-first order proved for lists that are already parents-first; refuted otherwise (C20_*_refuted)."
 },
 "C23": {
  "status": "proved",
  "note": "under the API discipline StreamSpec.allowed; C23_stream_out_of_partial_tier_refuted shows what happens without it."
 },
 "C24": {
  "status": "proved",
  "note": "under StreamSpec.allowed; four _refuted theorems give the histories where the English property fails of the code."
 },
 "C32": {
  "status": "proved",
  "note": "any history at all, fewer than 2^32 requests issued since the id was handed out."
 },
 "C37": {
  "status": "proved",
  "note": "error metric abstract, errors below infinity (C37_infinite_error_refuted: an infinite error is an out of bounds write); clips up to 2^24 samples; segments up to 32 samples (enforced by the compressor)."
 },
 "C21": {
  "status": "proved",
  "note": "error metric abstract through the stored contributing errors; tier counts computed in binary32."
 },
 "C22": {
  "status": "proved",
  "note": "segments that fit in a chunk; C22_oversized_segment_refuted: a segment larger than the maximum chunk size is only asserted against."
 },
 "C25": {
  "status": "proved",
  "note": "all tiers resident: the very bytes of the original clip; missing tiers: nearest resident neighbours."
 },
 "C26": {
  "status": "proved",
  "note": "exact acceptance rule; single byte corruption of tag, version, algorithm, hash or hashed content rejected. The size field itself is not protected: C26_wrong_size_refuted."
 },
 "C31": {
  "status": "proved",
  "note": "build, split and strip of inline databases; stripping a database that was split is refuted (C31_strip_after_split_refuted)."
 },
 "C18": {
  "status": "proved",
  "note": "every buffer, every history of calls, every writer."
 },
 "C27": {
  "status": "proved",
  "note": "scalar and transform clips, with clamped sample times. A change of the looping policy, or database streaming, between two identical seeks is missed: C27_*_refuted, C27_streaming_is_missed."
 },
 "C28": {
  "status": "proved",
  "note": "scalar and transform clips: names, parents, descriptions, contributing errors, for every flag combination; C28_list_name_flag_refuted: get_name tests the track name flag."
 },
 "C30": {
  "status": "proved",
  "note": "exact acceptance rules of the settings and of build_database's arguments; C30_scalar_clip_refuted: build_database accepts a scalar clip. Scalar compression never validates its settings (finding 22)."
 },
 "C38": {
  "status": "proved",
  "note": "histories of allocate/deallocate steps interleaved by any number of threads; a size near 2^64 wraps (refuted), a failed allocation counts as a leak."
 },
 "C39": {
  "status": "proved",
  "note": "SSE2 MXCSR; every path but the one of decompress_track for a track of three default sub-tracks (refuted); the sticky flags of the caller are cleared (refuted)."
 },
 "C34": {
  "status": "proved",
  "note": "end to end: from the constant samples in the streams to what the writer gets, after any legal history."
 },
 "C35": {
  "status": "proved",
  "note": "end to end, every mix of bit rates, segments and stripped key frames; the reconstruction of w and the interpolation (RTM) are not modelled: the writer event carries both decoded samples and the context carries alpha."
 },
 "C36": {
  "status": "proved",
  "note": "every version from v02_01_99_1 on; C36_versions for the older encoding."
 },
 "C40": {
  "status": "proved",
  "note": "exact for translations, scales and rotations that are not raw; raw rotations up to the sign of zeros (finding 25)."
 },
 "C41": {
  "status": "proved",
  "note": "from quantized streams (the lossy optimizer is outside the model) to playback; no database attached."
 },
 "C42": {
  "status": "proved",
  "note": "clips made by the compressor, no database attached; at least one output track."
 },
 "C43": {
  "status": "proved",
  "note": "from the streams that compact_constant_streams leaves (the bit rate search is an input; C44 starts from the tracks); drop-w components, before w is reconstructed; counts such that (bones+1)*(samples+1) < 2^22."
 },
 "C44": {
  "status": "proved",
  "note": "from the list of tracks; the bit rate search and the choice of stripped key frames are inputs (any legal ones); RTM quaternion functions and the error metric are arbitrary; the finiteness of an additive base is not modelled; (tracks+1)*(samples+1) < 2^22, components at most 1e10; two refuted/negative theorems on has_trivial_default_values."
 },
 "C45": {
  "status": "proved",
  "note": "transform clips; memory that is not initialized is an argument of the model (local group buffers, swizzle buffers, range buffers, stream allocations); the output buffer itself is zeroed by the code (compress.transform.impl.h); the bit rate search is an input, so its own determinism is not covered."
 },
 "C46": {
  "status": "proved",
  "note": "the clip is compressed by the model of C41 (any quantized streams, segments and formats); the builder's view of it (C25) is read in its buffer by clip_parts; bind_clip models build_compressed_tracks for one clip; the order of the writes of decompress_tracks is not compared (Permutation of the writes); hash and size of the bound clip are written as in C01/C20 models; a seek to the time the context is at is skipped even if more was streamed in (finding, C27_streaming_is_missed)."
 },
 "C47": {
  "status": "proved",
  "note": "the two error functions (quantize.transform.h:674-867) are parameters, functions of the bit rates; the permutation tables are defined by the order they are in (compared with a script). C47_the_search_ends_refuted: with an error metric that returns NaN the search may never end (finding 34)."
 },
 "C48": {
  "status": "proved",
  "note": "the measure of the error of transforms (an error metric class of the user) is not modelled. Refuted for the last sample of a looping clip, whose error can be above the precision (finding 35), and for lists without output tracks, whose error is -1 (finding 36)."
 },
 "C49": {
  "status": "proved",
  "note": "the interpolation is a parameter, any function of two samples and an alpha; the three writes of a transform are one write of the triple. Arrays of 1 to 2^22 - 3 samples per track and sample rates in 2^-100 .. 2^100, as in C09."
 },
 "C50": {
  "status": "proved",
  "note": "the product and the error of the metric are parameters; the poses of the two sources are functions of the time (that a context gives such poses is C27, C41); additive bases and the metric's conversions are not modelled. C50_parent_after_child_refuted: with a parent after its child, which validation accepts, the error depends on uninitialized memory (finding 39)."
 },
 "C51": {
  "status": "proved",
  "note": "finite samples, a finite precision that is not negative (what validation asks for). The property is refuted for tracks whose first sample is above all the others in some component: C51_constant_tracks_refuted (finding 40); the other theorems assume there is none when constant tracks are sanitized. The actions on transform tracks are not modelled."
 }
}