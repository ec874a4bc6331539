{"id": "C01", "title": "WAV header fields are decoded faithfully", "statement": "For every combination of field values (chunk size, format, channel count, sample rate, byte rate, alignment, bit depth), parsing the canonical 36-byte RIFF/WAVE/fmt header that carries them succeeds and reports exactly those values; the LIST and data chunk headers that follow are decoded to exactly the sizes they carry.", "quantifier": "all 32/16-bit field values", "why_tests_cant": "2^200 headers; a test checks a handful", "anchors": ["src/waveheaderparser.h: readWaveHeaderFromBuffer, readInfoTags, readDataHeader"]}
{"id": "C02", "title": "WAV header acceptance is exactly the documented format", "statement": "Parsing a 36-byte header returns success if and only if it starts with RIFF, carries WAVE, carries 'fmt ' and declares a 16-byte format chunk; any other buffer is rejected with an ordinary 'false', without undefined behaviour.", "quantifier": "all 36-byte buffers", "why_tests_cant": "the input space is 256^36; the interesting inputs are the malformed ones nobody wrote down", "anchors": ["src/waveheaderparser.h: readWaveHeaderFromBuffer"]}
{"id": "C03", "title": "Opening a WAV file either plays it or cleanly refuses", "statement": "playWav(filename) returns true exactly when the file opens, has a valid 16-bit header, an optional single LIST chunk followed by a data chunk, and at least one byte of audio; whenever it returns false isPlaying() is false afterwards; when it returns true isPlaying() is true and the channel count is the header's.", "quantifier": "all file contents, all prior reader states", "why_tests_cant": "all byte strings as files and all prior histories", "anchors": ["src/ResamplingReader.h: play, setNumChannels", "src/ResamplingSdReader.h: close", "src/waveheaderparser.h"]}
{"id": "C04", "title": "Playing an in-memory WAV plays the header's data region", "statement": "playWav(array) succeeds exactly when the array starts with a valid header, an optional LIST chunk and a data chunk; then the frames played are the ones stored immediately after the data chunk header, in order, and their number is data_bytes / channels / 2.", "quantifier": "all array contents, all tag sizes and data sizes", "why_tests_cant": "arbitrary header contents and sizes", "anchors": ["src/ResamplingReader.h: playWav(TArray*)", "src/waveheaderparser.h"]}
{"id": "C05", "title": "Unity-rate playback is the identity", "statement": "At rate 1.0, without looping, interpolation or dual head, the concatenation of the blocks returned by successive read() calls is exactly the source, frame by frame and channel by channel, each frame once, in order, for every sequence of requested block sizes; afterwards every read() returns 0.", "quantifier": "all sources (any content, length, channel count), all sequences of block sizes", "why_tests_cant": "unbounded source lengths and every partition into blocks", "anchors": ["src/ResamplingReader.h: read, readNextValue", "src/ResamplingArrayReader.h: getSourceBufferValue"]}
{"id": "C06", "title": "Block size does not change the sound", "statement": "For every rate, direction, loop mode, interpolation mode and crossfade setting, read(n) followed by read(m) delivers the same samples and leaves the reader in the same state as one read(n+m).", "quantifier": "all reader states, all n and m", "why_tests_cant": "all configurations and all splits", "anchors": ["src/ResamplingReader.h: read"]}
{"id": "C07", "title": "Exact pitch for every single-precision rate", "statement": "With a constant rate r set through setPlaybackRate(float), 2^-29 <= r, the k-th delivered frame of non-looping uninterpolated playback is source frame floor(k*r), for every k: there is no cumulative pitch drift.", "quantifier": "all binary32 rates in range, all k, all sources", "why_tests_cant": "floating point accumulation error only shows after long runs and for particular rates", "anchors": ["src/ResamplingReader.h: read (fractional position), setPlaybackRate", "src/playresmp.h: setPlaybackRate"]}
{"id": "C08", "title": "Bounded drift under arbitrary rate changes", "statement": "For any sequence of finite rates applied frame by frame, the distance travelled through the source equals the sum of the rates up to a rounding error of at most 2^-53 (|rate|+1) per frame, and less than one frame of position is ever pending.", "quantifier": "all sequences of finite double rates", "why_tests_cant": "all rate automation histories", "anchors": ["src/ResamplingReader.h: read (fractional position)"]}
{"id": "C09", "title": "Non-looping playback ends, after the right number of frames", "statement": "Without looping, forward at exact rate r > 0, playback of a source of L frames delivers exactly ceil(L/r) frames and then every further read() returns 0.", "quantifier": "all L, all exact rates, all block sequences", "why_tests_cant": "unbounded L and rates", "anchors": ["src/ResamplingReader.h: read, readNextValue"]}
{"id": "C10", "title": "Reverse playback is the time reversal", "statement": "Started at rate -1.0 without looping, playback delivers exactly the source frames in reverse order, each once, and then ends - for arrays and files, for any channel count.", "quantifier": "all sources, channel counts, block sequences", "why_tests_cant": "all lengths/channel counts; the tests only compare to recorded reference output", "anchors": ["src/ResamplingReader.h: reset, read, readNextValue, playRaw(TArray*)"]}
{"id": "C11", "title": "Repeat loop is exactly periodic", "statement": "At rate 1.0 with loop type repeat and 0 <= start < finish <= length, after the first pass the output is periodic with the frames start..finish-1 in order, forever.", "quantifier": "all loop bounds, all output positions, all block sequences", "why_tests_cant": "an infinite output stream", "anchors": ["src/ResamplingReader.h: read, setLoopStart, setLoopFinish"]}
{"id": "C12", "title": "Ping-pong loop is a triangle", "statement": "At rate 1.0 with loop type ping-pong the output visits start..finish-1 forwards then backwards alternately, forever, never leaving the loop.", "quantifier": "all loop bounds, all output positions, channel counts", "why_tests_cant": "an infinite output stream", "anchors": ["src/ResamplingReader.h: read"]}
{"id": "C13", "title": "Looping playback never ends, never stalls", "statement": "With a non-empty loop (start < finish) read(n) always delivers exactly n frames, whatever the rate, direction and history, and it always returns.", "quantifier": "all rates, loop bounds, histories", "why_tests_cant": "termination for all inputs; a hang happens inside the audio interrupt", "anchors": ["src/ResamplingReader.h: read"]}
{"id": "C14", "title": "Array playback never reads outside the array", "statement": "For every history of playRaw/read/setPlaybackRate/setLoopType/setLoopStart/setLoopFinish/setPlayStart/stop calls with loop bounds inside the sample, every access to the user's array is inside it.", "quantifier": "all call histories, all contents", "why_tests_cant": "all interleavings of control calls with playback", "anchors": ["src/ResamplingReader.h: read, setPlaybackRate, getSourceBufferValue"]}
{"id": "C15", "title": "Channels never swap", "statement": "At every moment of playback of an n-channel source the play position is a whole number of frames from the start of the audio data, so channel c of the output always carries channel c of the source.", "quantifier": "all histories of control calls, all rates", "why_tests_cant": "all histories", "anchors": ["src/ResamplingReader.h: read, reset, setPlaybackRate, _samples_to_start"]}
{"id": "C16", "title": "Quadratic interpolation at unity rate is a pure delay", "statement": "With interpolation enabled at rate 1.0 the output is the source delayed by two frames (the first three output frames are silence), each sample within 1 LSB.", "quantifier": "all sources and block sequences", "why_tests_cant": "all 16-bit contents", "anchors": ["src/ResamplingReader.h: readNextValue (quadratic)", "src/interpolation.cpp: fastinterpolate"]}
{"id": "C17", "title": "Cubic interpolator accuracy", "statement": "For any four 16-bit samples and any fraction in [0,1] the interpolated value is within 1.1 of the exact cubic through the points (clamped to 16 bits), and the conversion to integer never overflows.", "quantifier": "all 2^64 sample quadruples, all single-precision x in [1,2]", "why_tests_cant": "2^87 inputs; float32 rounding", "anchors": ["src/interpolation.cpp: fastinterpolate"]}
{"id": "C18", "title": "Lagrange interpolator passes through its points", "statement": "interpolate() evaluated at one of its (distinct) abscissae returns that point's ordinate exactly.", "quantifier": "all point sets with distinct x, all n up to 16", "why_tests_cant": "unbounded combinations, double rounding", "anchors": ["src/interpolation.cpp: interpolate"]}
{"id": "C19", "title": "Interpolation never reads outside the source", "statement": "With interpolation enabled, every sample fetched while playing an array forward or backward lies inside the array.", "quantifier": "all rates, positions, lengths", "why_tests_cant": "boundary conditions depend on the rate", "anchors": ["src/ResamplingReader.h: readNextValue (quadratic, linear)"]}
{"id": "C20", "title": "Crossfade blends, never overshoots", "statement": "During a crossfade the gain of each head is in [0,1] and the delivered sample lies between the two heads' samples (within 1 LSB), so a crossfade never clips or wraps.", "quantifier": "all fade positions, durations, sample values", "why_tests_cant": "all combinations of doubles and samples", "anchors": ["src/ResamplingReader.h: _updateCrossfade, readNextValue"]}
{"id": "C21", "title": "Crossfaded repeat loop is periodic and seamless", "statement": "With the dual head enabled at rate 1.0, repeat loop and crossfade duration d with start+2d+1 <= finish, the output is, from the first pass on, periodic with period finish-start-d: d+1 frames blending the end of the loop into its beginning, then the plain remainder, with the fade starting at pure old head and ending at pure new head.", "quantifier": "all loop bounds, durations, output positions", "why_tests_cant": "infinite output stream", "anchors": ["src/ResamplingReader.h: _updateCrossfade, read"]}
{"id": "C22", "title": "Dual head respects loop_none", "statement": "With the dual head enabled and loop type none, playback still stops at the end of the sample.", "quantifier": "all sources", "why_tests_cant": "infinite behaviour", "anchors": ["src/ResamplingReader.h: readNextValue, _updateCrossfade"]}
{"id": "C23", "title": "File playback never plays the wrong sample", "statement": "For every history of preload, reload and read operations a sample fetched from a buffered file is either the file's sample at that index or silence, never the content of another place in the file or of another file.", "quantifier": "all files, all histories, all indices inside the file", "why_tests_cant": "all histories of buffer recycling", "anchors": ["src/IndexableFile.h: operator[], loadBuffer, triggerReload, preLoadBuffers"]}
{"id": "C24", "title": "The audio interrupt never touches the filesystem", "statement": "Fetching samples (read/update) never seeks, reads, opens or closes the file and never alters buffered audio data, whatever is requested; it only records usage and counts misses.", "quantifier": "all states and requests", "why_tests_cant": "all states", "anchors": ["src/IndexableFile.h: operator[], find_with_index", "src/ResamplingReader.h: read"]}
{"id": "C25", "title": "Prefetch keeps up", "statement": "If a reload is serviced between consecutive updates and two consecutive updates advance by no more than the buffered span minus one block, forward non-looping file playback never misses: every fetched sample is the file's.", "quantifier": "all files, block sizes, buffer counts, rates/positions (monotone reads), all numbers of updates", "why_tests_cant": "unbounded number of updates and files", "anchors": ["src/IndexableFile.h: triggerReload, preLoadBuffers, operator[]"]}
{"id": "C26", "title": "Reload always terminates", "statement": "Servicing a reload request always returns.", "quantifier": "all cache states", "why_tests_cant": "a hang depends on history", "anchors": ["src/IndexableFile.h: triggerReload"]}
{"id": "C27", "title": "Reload is safe for looping files of any length", "statement": "Servicing a reload request during looped playback never accesses a buffer that does not exist, however short the file.", "quantifier": "all file lengths, loop settings, cache states", "why_tests_cant": "undefined behaviour is invisible to tests", "anchors": ["src/IndexableFile.h: triggerReload, preLoadBuffers"]}
{"id": "C28", "title": "Serial-flash playback at normal speed has no dropouts", "statement": "Playing a mono file from serial flash at rate 1.0 with a reload serviced after every update delivers every sample of the file.", "quantifier": "all files and header offsets", "why_tests_cant": "depends on alignment of the header to the buffer size", "anchors": ["src/ResamplingSerialFlashReader.h", "src/IndexableFile.h: triggerReload"]}
{"id": "C29", "title": "A reload interrupted by the audio update is harmless", "statement": "If the audio interrupt runs at any point inside a reload, each sample it fetches is still the file's sample or silence.", "quantifier": "all interruption points, all requests", "why_tests_cant": "all interleavings", "anchors": ["src/IndexableFile.h: loadBuffer, triggerReload"]}
{"id": "C30", "title": "Player lifecycle", "statement": "Through the player API, whenever isPlaying() is true the source exists, so update() never dereferences a missing source; stop() makes isPlaying() false and nothing is transmitted until the next successful play.", "quantifier": "all API call histories including file errors", "why_tests_cant": "all histories", "anchors": ["src/playresmp.h: update, stop, playRaw, playWav", "src/ResamplingReader.h: play, close"]}
{"id": "C31", "title": "Replay is history-independent", "statement": "Starting playback of a given source with given settings delivers the same samples whatever was played before on the same object.", "quantifier": "all histories", "why_tests_cant": "all histories", "anchors": ["src/ResamplingReader.h: reset, play, playRaw"]}
{"id": "C32", "title": "RAW playback starts at the first sample", "statement": "playRaw(filename) starts at the first sample of the file and ends at the last, whatever the object played before.", "quantifier": "all histories", "why_tests_cant": "needs the right two-step history", "anchors": ["src/ResamplingReader.h: play"]}
{"id": "C33", "title": "update() neither leaks nor double-frees audio blocks", "statement": "For every pattern of allocation failures, update() releases exactly the blocks it allocated, each once, and transmits only complete sets of blocks.", "quantifier": "all allocation outcomes, all channel counts, all reader states", "why_tests_cant": "all failure patterns", "anchors": ["src/playresmp.h: update"]}
{"id": "C34", "title": "Update transmits a full block; mono goes to both outputs", "statement": "When update() transmits, each channel's block holds the samples read followed by zeros up to 128; a mono source is sent to outputs 0 and 1, an n-channel source to outputs 0..n-1.", "quantifier": "all reader states and contents", "why_tests_cant": "all states", "anchors": ["src/playresmp.h: update"]}
{"id": "C35", "title": "Playback that reached its end stops, under every schedule", "statement": "After the source is exhausted every update() requests a close; once any of these requests is serviced isPlaying() is false; and a reload request never overwrites a pending close while the source stays exhausted.", "quantifier": "all schedules of updates and event servicing", "why_tests_cant": "all interleavings", "anchors": ["src/playresmp.h: update, event_response", "src/AudioEventResponder.h: triggerEvent"]}
{"id": "C36", "title": "Response masking nests", "statement": "Between matching disableResponse()/enableResponse() calls at any depth the yield response is masked, and after the outermost enableResponse() the mask is exactly as it was before the outermost disableResponse() (plus responders attached meanwhile).", "quantifier": "all properly nested call sequences of any depth", "why_tests_cant": "unbounded nesting", "anchors": ["src/AudioEventResponder.h: disableResponse, enableResponse, updateResponse"]}
{"id": "C37", "title": "Polled events form a FIFO without duplicates", "statement": "Triggered events are run by runPolled() in first-trigger order, each pending player once with its latest request; runPolled() returns -1/0/1 exactly as documented.", "quantifier": "all histories of trigger/runPolled over any number of players", "why_tests_cant": "all histories", "anchors": ["src/AudioEventResponder.h: triggerEvent, runPolled, _runPolled", "src/AudioEventResponder.cpp: addToList, removeFromList"]}
{"id": "C38", "title": "Detaching a pending polled player leaves the others intact", "statement": "detach() on a player with a pending polled event removes exactly that event.", "quantifier": "all queue states", "why_tests_cant": "depends on queue position", "anchors": ["src/AudioEventResponder.cpp: removeFromList", "src/AudioEventResponder.h: detach"]}
{"id": "C39", "title": "Stopping one polled player does not affect another's events", "statement": "In polled mode stop() on one player never loses or duplicates another player's pending event, and cancels its own.", "quantifier": "all histories over several players", "why_tests_cant": "needs particular interleavings of several players", "anchors": ["src/playresmp.h: stop", "src/AudioEventResponder.h: triggerEvent, detach"]}
{"id": "C40", "title": "No memory leak across play/close cycles", "statement": "After close() the reader owns no memory, for every history; at any time it owns at most one file name, one source object and its fixed number of buffers.", "quantifier": "all histories including failed opens", "why_tests_cant": "leaks need long histories", "anchors": ["src/ResamplingReader.h: play", "src/ResamplingSdReader.h: close", "src/IndexableFile.h: close, preLoadBuffers"]}
{"id": "C41", "title": "lengthMillis is accurate", "statement": "lengthMillis() of a mono 16-bit 44.1kHz source is its duration rounded down to a millisecond (or one less), for all sizes.", "quantifier": "all sizes", "why_tests_cant": "2^31 sizes", "anchors": ["src/ResamplingReader.h: lengthMillis, B2M"]}
{"id": "C42", "title": "positionMillis is monotone and bounded", "statement": "For file playback positionMillis() never exceeds lengthMillis(), is 0 at position 0 and is monotone in the play position.", "quantifier": "all positions, sizes", "why_tests_cant": "double rounding for all pairs", "anchors": ["src/ResamplingSdReader.h: positionMillis, lengthMillis", "src/ResamplingReader.h: positionMillis"]}
{"id": "C43", "title": "Changing the rate does not move the play head", "statement": "setPlaybackRate() during playback changes the position only when the head is at or before the start (reverse: jump to the end; forward: jump to the start).", "quantifier": "all states, all rates", "why_tests_cant": "all states", "anchors": ["src/ResamplingReader.h: setPlaybackRate"]}
{"id": "C44", "title": "loop(n) loops n frames from the current position", "statement": "loop(n) called during playback makes the following output periodic over the n frames starting at the current position.", "quantifier": "all positions, channel counts, sources", "why_tests_cant": "all positions", "anchors": ["src/ResamplingReader.h: loop"]}
{"id": "C45", "title": "playWav(array, size) plays the array", "statement": "playWav(data, fileSize) plays the WAV data it is given.", "quantifier": "all arrays and sizes", "why_tests_cant": "all arrays", "anchors": ["src/ResamplingReader.h: playWav(TArray*,uint32_t), playRaw(TArray*,uint16_t)", "src/playresmp.h: playWav(int16_t*,uint32_t)"]}
{"id": "C46", "title": "A file shorter than its header claims plays silence past its end", "statement": "If the data chunk declares more bytes than the file holds, the samples past the end of the file are delivered as silence.", "quantifier": "all truncated files", "why_tests_cant": "uninitialised memory is invisible to tests", "anchors": ["src/IndexableFile.h: loadBuffer, operator[], find_with_index", "src/ResamplingReader.h: play"]}
{"id": "C47", "title": "Malformed WAV channel counts are refused", "statement": "A WAV file whose header declares zero channels or more channels than supported is refused or played, never undefined behaviour.", "quantifier": "all headers", "why_tests_cant": "all headers", "anchors": ["src/ResamplingReader.h: play, playWav(TArray*), read, readNextValue"]}
{"id": "C48", "title": "Length unit is the same in both directions", "statement": "playRaw(array, length, channels) addresses the same set of frames forwards and backwards.", "quantifier": "all lengths and channel counts", "why_tests_cant": "all lengths/channel counts", "anchors": ["src/ResamplingReader.h: playRaw(TArray*,uint32_t,uint16_t), reset"]}
{"id": "C49", "title": "Reverse playback of arrays, where it is right", "statement": "Started at rate -1.0 without looping, a mono array is delivered in reverse order, each frame once; so is an array of any channel count from the explicit start frame given with setPlayStart back to its first frame.", "quantifier": "all contents, lengths, start frames, block sequences", "why_tests_cant": "holds for unboundedly many frames and block splits; multi-channel default start is a different (refuted) claim, so tests of mono say nothing about it", "anchors": ["src/ResamplingReader.h: reset, readNextValue", "src/ResamplingArrayReader.h"]}
{"id": "C50", "title": "Loops at any exact rate", "statement": "With repeat or ping-pong looping, in either direction and at any rate num/2^q, the k-th delivered frame is the one reached by moving num/2^q frames per output frame and jumping at the loop ends, for every k: the loop introduces no drift.", "quantifier": "all exact rates, loop bounds, channel counts, start modes, k", "why_tests_cant": "unbounded number of loop passes; error accumulation is only visible after many passes", "anchors": ["src/ResamplingReader.h: readNextValue, read"]}
{"id": "C51", "title": "Ping-pong loop of a mono array started from the loop", "statement": "At rate 1.0 a mono ping-pong loop (playback starting from the loop, or loop starting at frame 0) plays up to finish-1, then down to start, then up again, for ever, never leaving the loop.", "quantifier": "all loop bounds, start frames, k, block sequences", "why_tests_cant": "infinite output", "anchors": ["src/ResamplingReader.h: readNextValue"]}
{"id": "C52", "title": "Correct use of array playback is safe", "statement": "For every history of playRaw/play/read/setPlaybackRate/setLoopType/setLoopStart/setLoopFinish/setPlayStart/stop/close calls that keeps arrays as long as declared, loop bounds and start inside the sample, |rate| <= 2^14, no reversal past the end and no parked rate with a loop finish below the channel count, no call has undefined behaviour and every frame delivered is a whole frame of the source.", "quantifier": "all call histories, contents, channel counts", "why_tests_cant": "all interleavings of control calls", "anchors": ["src/ResamplingReader.h", "src/ResamplingArrayReader.h"]}
{"id": "C53", "title": "Playable loops never end and never stall", "statement": "After every such history, a playing reader with start < finish (and, for reverse repeat, the restart frame finish-channels inside the loop) returns exactly n frames from read(n), and stays in that condition.", "quantifier": "all histories, rates, loop bounds, n", "why_tests_cant": "termination over all histories", "anchors": ["src/ResamplingReader.h: read, readNextValue"]}
{"id": "C54", "title": "When a reload returns", "statement": "Servicing a reload request fails to return in exactly one situation: reverse rate, no looping, nothing but unused buffers, and no block before the first buffered one.", "quantifier": "all cache states after any history, all rates", "why_tests_cant": "An infinite loop is not observed by a finite run; the set of states is unbounded.", "anchors": ["src/IndexableFile.h:96-235"]}
{"id": "C55", "title": "Reload with all buffers present is safe", "statement": "Once a file fills all buffers of the cache, no reload, fetch or loop-setting call accesses a buffer that does not exist, and the number of buffers stays full.", "quantifier": "all files, cache states, histories and loop settings", "why_tests_cant": "Needs every history of reloads, fetches and loop changes.", "anchors": ["src/IndexableFile.h:96-235", "src/IndexableFile.h:369-407"]}
{"id": "C56", "title": "Files at rate 1.0 play every frame", "statement": "At rate 1.0 without looping, with a reload serviced after every update of at most B frames and 2*B*channels <= (buffers-1)*block, playback of a WAV or RAW file delivers exactly its frames, each once, in order, without a miss, and then nothing.", "quantifier": "all files, tag sizes, channel counts, update sizes, block sizes and buffer counts", "why_tests_cant": "Depends on file size, header size and all update sizes together; unbounded length.", "anchors": ["src/ResamplingReader.h:95-308", "src/IndexableFile.h:96-431"]}
{"id": "C57", "title": "Files have exact pitch and length", "statement": "At a constant single-precision rate x >= 2^-29 that the prefetch keeps up with, the k-th frame delivered from a file is frame floor(k*x), for every k; and the number of frames is ceil(L/x).", "quantifier": "all files, rates in range, k", "why_tests_cant": "Drift shows only after unbounded time.", "anchors": ["src/ResamplingReader.h:95-308", "src/IndexableFile.h:96-431"]}
{"id": "C58", "title": "Yield-mode events form a FIFO that stop, play and detach respect", "statement": "In yield mode, triggered events are run in first-trigger order, each pending player once with its latest request; stop(), a play function and detach() remove exactly the event of their own player; a player that is not attached gets no event.", "quantifier": "all histories of trigger, yield, stop, play and detach over any number of players", "why_tests_cant": "all histories over any number of players", "anchors": ["src/AudioEventResponder.h:97-133", "src/playresmp.h:49-75,155-160"]}
{"id": "C59", "title": "Switching a stopped player from yield to polled service can crash", "statement": "A player stopped while it is not first in the yield queue keeps a stale _prev; when it is then played in polled mode, servicing its first event dereferences a null pointer.", "quantifier": "one history", "why_tests_cant": "Needs two players, a stop between trigger and service, and a mode switch.", "anchors": ["src/AudioEventResponder.cpp:53-68", "src/AudioEventResponder.h:86-110"]}
{"id": "C60", "title": "Destroying a player leaks whatever it had open", "statement": "Destroying a player object frees all heap memory it owns exactly when no file is open on it; otherwise the source object, its buffers and the file name are leaked, since the reader destructors are empty.", "quantifier": "all histories of all players", "why_tests_cant": "Leaks do not change outputs; the set of histories is unbounded.", "anchors": ["src/playsdresmp.h:27-29", "src/ResamplingSdReader.h:16-30", "src/ResamplingSdReader.h:53-68"]}
{"id": "C61", "title": "Restarting a closed reader is harmless", "statement": "After close(), calling the reader's play() and reading delivers silence and dereferences nothing.", "quantifier": "all file readers", "why_tests_cant": "Depends on the reader class; null dereference at address 0 does not trap on a Teensy.", "anchors": ["src/ResamplingReader.h:200-206", "src/ResamplingSdReader.h:35-39", "src/ResamplingLfsReader.h:31-33"]}
{"id": "C62", "title": "File players stop within N yields of running out", "statement": "With at most N players that ever played a file, in yield mode: after the first update in which the source delivers less than a full block, isPlaying() is false once yield() has been called N times, whatever other players and further updates do in between.", "quantifier": "all histories before and after, all N, all sources", "why_tests_cant": "Needs all interleavings of updates and servicing of many players.", "anchors": ["src/playresmp.h:23-42", "src/playresmp.h:166-218", "src/AudioEventResponder.h:97-133"]}
{"id": "C63", "title": "Array players never stop by themselves", "statement": "A player that only ever played arrays, in yield mode, keeps isPlaying() true for ever after its array has run out, until stop() or a play function is called on it.", "quantifier": "all histories", "why_tests_cant": "The absence of an event for ever is not observable by a test.", "anchors": ["src/playresmp.h:77-102", "src/playresmp.h:166-218", "src/AudioEventResponder.h:97-109"]}
{"id": "C64", "title": "What playback leaves behind", "statement": "Two reader objects with the same settings, the same left-over fraction of a frame and (with linear interpolation) the same last points deliver the same samples from the same source, whatever else they have been through; RAW files also need the same header offset, looped files the same loop bounds.", "quantifier": "all pairs of objects, all sources, all read patterns", "why_tests_cant": "Needs all pairs of histories.", "anchors": ["src/ResamplingReader.h:580-622", "src/ResamplingReader.h:41-180"]}
{"id": "C65", "title": "Replay at whole-number rates", "statement": "An object used only at whole-number rates, not ping-pong and without linear interpolation, replays any array or WAV file exactly as if it were new, after any history of play, read, service, stop and close calls.", "quantifier": "all histories, all sources", "why_tests_cant": "Needs all histories.", "anchors": ["src/ResamplingReader.h:580-622", "src/ResamplingReader.h:294-305"]}
{"id": "C66", "title": "lengthMillis counts the whole file as mono", "statement": "For every RAW or WAV file below 2 GB, whatever its channels, headers and tags, lengthMillis() is the number of bytes of the file divided by 88.2, rounded down, or one less.", "quantifier": "all files, all channel counts", "why_tests_cant": "2^31 sizes.", "anchors": ["src/ResamplingReader.h:679-688", "src/ResamplingSdReader.h:89-91"]}
{"id": "C67", "title": "positionMillis inside the file", "statement": "While the position of the heard playback head lies inside a file of at least 2 bytes, positionMillis() is defined, is between 0 and lengthMillis(), is within 1 ms of position * length / samples, and never decreases as the position grows.", "quantifier": "all positions, all file sizes below 2 GB, one or two heads", "why_tests_cant": "Two roundings in double arithmetic for all pairs of position and size; the product exceeds 2^53.", "anchors": ["src/ResamplingSdReader.h:76-87"]}
{"id": "C68", "title": "Two heads never end", "statement": "With the second playback head enabled every read of n frames that returns delivers exactly n frames and leaves the reader playing, whatever the loop type, rate, source and settings.", "quantifier": "all states, all read sizes, all loop types", "why_tests_cant": "The absence of an end for ever is not observable by a test.", "anchors": ["src/ResamplingReader.h:227-306", "src/ResamplingReader.h:367-515"]}
{"id": "C69", "title": "Gains of a fade that fits into the loop", "statement": "If the fade lasts at least one frame and fits into the loop, then over every sequence of reads and of rate changes that keep the sign of the rate the gain stays a number in [0,1], and every sample delivered lies within 1 of the two blended samples and not further from 0 than both.", "quantifier": "all loop bounds, durations, rates, rate changes, read sizes, sample values", "why_tests_cant": "All combinations of doubles and samples over unbounded histories.", "anchors": ["src/ResamplingReader.h:311-365", "src/ResamplingReader.h:367-515"]}
{"id": "C70", "title": "Crossfaded repeat loop", "statement": "At rate 1 with start + 2d + 1 < finish the output is the source up to finish-d, then for ever with period finish-start-d: d frames in which frame finish-d+j is blended into frame start+j with weights d-j : j (the first one exactly the old head), then exactly the frames start+d ... finish-d-1.", "quantifier": "all arrays, channel counts, loop bounds, durations, start positions, read sizes", "why_tests_cant": "Infinite output stream.", "anchors": ["src/ResamplingReader.h:311-365", "src/ResamplingReader.h:217-308"]}
{"id": "C71", "title": "Cubic interpolator accuracy, bound 1.125", "statement": "For any four 16-bit samples and any single-precision x in [1,2] the interpolated value is a 16-bit value within 1.125 of the cubic through the points clamped to 16 bits, and nothing in the computation is undefined.", "quantifier": "all 2^64 sample quadruples, all single-precision x in [1,2]", "why_tests_cant": "2^87 inputs; float32 rounding.", "anchors": ["src/interpolation.cpp: fastinterpolate"]}
{"id": "C72", "title": "Quadratic interpolation of arrays at rate 1", "statement": "An array of up to 8 channels played at rate 1 with quadratic interpolation and without looping gives three frames of silence and then the source two frames late, each sample within 1, for exactly as many frames as are left from the start position.", "quantifier": "all arrays, contents, channel counts, start positions, read sizes", "why_tests_cant": "All 16-bit contents; infinite family of read patterns.", "anchors": ["src/ResamplingReader.h: readNextValue (quadratic)", "src/interpolation.cpp: fastinterpolate"]}
{"id": "C73", "title": "When interpolated playback of an array stays inside", "statement": "Forward playback (and repeat; with quadratic interpolation at most at rate 1) never does anything undefined and delivers 16-bit samples only, provided that with quadratic interpolation the start position leaves min(ceil(rate),4)-1 frames before it. Backward playback likewise if min(ceil(-rate),4)-1 frames lie behind the start position.", "quantifier": "all arrays of up to 8 channels, all finite rates up to 2^26, all start positions, all read sizes", "why_tests_cant": "Boundary conditions depend on the rate; unbounded read patterns.", "anchors": ["src/ResamplingReader.h: readNextValue (quadratic, linear)"]}
{"id": "C74", "title": "Linear interpolation up to rate 1", "statement": "An array of up to 8 channels played forward with linear interpolation at a rate 0 < x <= 1 (x = n/2^q) gives, with position k x = w + f: first the left-over point of the previous playback (0 for a new object), source frame 0 unchanged while w = 0, and from then on a value within 1.000000001 of (1-f) s[w-1] + f s[w], exactly s[w-1] at f = 0: the interpolated source one frame late.", "quantifier": "all arrays, contents, start positions, rates, read sizes, all k", "why_tests_cant": "Infinite output stream; all rates.", "anchors": ["src/ResamplingReader.h: readNextValue (linear)"]}
{"id": "C75", "title": "Quadratic interpolation up to rate 1", "statement": "An array of up to 8 channels played forward with quadratic interpolation at a rate 0 < x <= 1 (x = n/2^q) gives, with position k x = w + f: silence while w < 3 and from then on a value within 1.17 of the cubic through frames w-3 .. w at w-2+f, clamped to 16 bits.", "quantifier": "all arrays, contents, start positions, rates, read sizes, all k", "why_tests_cant": "Infinite output stream; all rates; float rounding.", "anchors": ["src/ResamplingReader.h: readNextValue (quadratic)", "src/interpolation.cpp: fastinterpolate"]}
{"id": "C76", "title": "Linear interpolation reproduces straight lines", "statement": "Played at constant rate x with linear interpolation, a source whose samples rise by 1 per frame gives, after the first frames, outputs that rise by x per frame up to rounding (at most 1).", "quantifier": "all rates", "why_tests_cant": "All rates.", "anchors": ["src/ResamplingReader.h: readNextValue (linear)"]}
{"id": "C77", "title": "Bounded drift over rate changes and reads", "statement": "With one head and no loop, over any sequence of setPlaybackRate calls with finite rates that do not relocate the head and of reads that are defined, the frames travelled plus the pending fraction equal the sum of rate * frames delivered up to 2^-53 (|rate|+1) per frame, less than one frame is pending, and from an array without interpolation the next frame heard is source frame p with |p - exact position| < 1 + accumulated error.", "quantifier": "all sources, all sequences of finite double rates and read sizes", "why_tests_cant": "All rate automation histories; rounding errors accumulate.", "anchors": ["src/ResamplingReader.h:217-308", "src/ResamplingReader.h:517-552"]}
{"id": "C78", "title": "Interrupted reloads", "statement": "If the audio interrupt fetches any samples at any points inside any reloads (the file read delivering its bytes in any order), every sample fetched inside a reload is the file's sample or silence counted as a failure, unless its block is the one whose buffer is being overwritten at that moment and still carries the old index; and after the reloads every sample fetched is the file's sample or counted silence.", "quantifier": "all interruption points, all requests, all histories of operations, all files below 2 GB, all buffer sizes and counts", "why_tests_cant": "all interleavings", "anchors": ["src/IndexableFile.h:96-245", "src/IndexableFile.h:337-363", "src/IndexableFile.h:418-431"]}
{"id": "C79", "title": "A file without misses plays like an array", "statement": "After a file has been opened, every session of reads, reloads, rate changes and settings (loops, crossfades, interpolation) that returns with the count of missed samples still 0 delivers exactly the frames that the same session delivers from an array with the bytes of the file, whenever that one is defined, and ends in the same state.", "quantifier": "all files up to 2 GB, all readers, all sessions of any length", "why_tests_cant": "Two implementations of the sample source compared over unbounded histories.", "anchors": ["src/ResamplingReader.h:217-677", "src/IndexableFile.h:96-431"]}
{"id": "C80", "title": "What a read needs buffered", "statement": "If samples lo to hi of a file are in the buffers and a read would be defined on an array made of these samples alone, the read from the file delivers the same frames and the same state, with no missed sample.", "quantifier": "all files, buffer states, positions, rates, loops, interpolators, read sizes", "why_tests_cant": "All combinations of buffer contents and reader states.", "anchors": ["src/ResamplingReader.h:217-515", "src/IndexableFile.h:418-483"]}
{"id": "C81", "title": "Dropouts never move the timeline", "statement": "Two sessions with the same reads and settings deliver the same number of frames and end at the same play positions, rates and fade state, whatever the two sources contain, whichever samples are missed, whenever reloads are serviced and whichever interpolators are chosen.", "quantifier": "all pairs of sources, all sessions", "why_tests_cant": "Needs all pairs of sources and reload timings over unbounded sessions.", "anchors": ["src/ResamplingReader.h:217-677", "src/IndexableFile.h:418-431"]}
{"id": "C82", "title": "Interpolated forward playback of files is that of arrays", "statement": "A RAW or WAV file played forward without looping at any constant finite rate 0 <= x <= s, with any interpolator, in updates of at most B frames each followed by a serviced reload, delivers what the same reader delivers from an array with the bytes of the file, in the same states, without a missed sample, provided that (2 B s + 1) * channels <= (buffers-1) * block and, for the cubic interpolator above rate 1, that the s-1 frames before the start position lie in its block.", "quantifier": "all files, headers, channel counts, rates, start positions, update sizes, block sizes and buffer counts", "why_tests_cant": "Depends on where blocks end relative to the fetches of every frame; unbounded length.", "anchors": ["src/ResamplingReader.h:95-515", "src/IndexableFile.h:96-431"]}
{"id": "C83", "title": "Linear interpolation of files up to rate 1", "statement": "A RAW or WAV file of up to 8 channels played forward at a rate 0 < x <= 1 (x = n/2^q) with linear interpolation gives what C74 says of arrays, with no missed sample, if (2 B + 1) * channels <= (buffers-1) * block for updates of at most B frames.", "quantifier": "all files, contents, rates, start positions, update sizes, all k", "why_tests_cant": "Infinite output stream; all rates; block boundaries.", "anchors": ["src/ResamplingReader.h:95-515", "src/IndexableFile.h:96-431"]}
{"id": "C84", "title": "Quadratic interpolation of files up to rate 1", "statement": "A RAW or WAV file of up to 8 channels played forward at a rate 0 < x <= 1 (x = n/2^q) with quadratic interpolation gives what C75 says of arrays, with no missed sample, if (2 B + 1) * channels <= (buffers-1) * block for updates of at most B frames.", "quantifier": "all files, contents, rates, start positions, update sizes, all k", "why_tests_cant": "Infinite output stream; all rates; block boundaries; float rounding.", "anchors": ["src/ResamplingReader.h:95-515", "src/IndexableFile.h:96-431", "src/interpolation.cpp: fastinterpolate"]}
{"id": "C85", "title": "From the file to the outputs", "statement": "In a sketch that does not poll and in which only players below N play files, play(file) succeeds in any state it reached, and then, as long as yield() is called N times between updates of that player, whatever the other players do, each update that gets its audio blocks transmits the next 128 frames of the file (at rate x frame floor(k x) as the k-th) on the outputs 0..channels-1 (mono on 0 and 1), the last one padded with zeros, and nothing after it; an update without blocks transmits nothing and skips no frame; the player has stopped exactly when the last block has been sent; and its next update always has a defined result. For forward playback without looping and interpolation whose updates of 128 frames the buffers keep up with.", "quantifier": "all histories, files, channel counts, rates, start positions, schedules, other players, allocation failures", "why_tests_cant": "Unbounded interleavings of several players, interrupts and yield() over unbounded playback.", "anchors": ["src/playresmp.h:23-75", "src/playresmp.h:155-218", "src/ResamplingReader.h:95-515", "src/IndexableFile.h:96-431", "src/AudioEventResponder.cpp"]}
{"id": "C86", "title": "Repeat loops played from files", "statement": "A RAW or WAV file with a repeat loop, played forward without interpolation at any constant rate x = n/2^q from a frame before the end of the loop, with all buffers filled at the start, delivers exactly the frames that the loop walk over the file prescribes, for ever, with no missed sample: at any rate and any update size if all blocks of the loop are buffered at the start, and otherwise if two updates of at most B frames span at most all buffers but three and the buffers either begin before the loop or end inside it. At rate 1 the k-th frame is p0+k, beyond the end of the loop ls + (p0+k-ls) mod (lf-ls).", "quantifier": "all files, headers, channel counts, loop bounds, start positions, rates, update sizes, block sizes and buffer counts, all k", "why_tests_cant": "Infinite output; the order of the buffers rotates against the loop, and block boundaries fall anywhere in it.", "anchors": ["src/ResamplingReader.h:95-515", "src/IndexableFile.h:96-431"]}
{"id": "C87", "title": "A repeat loop may be started anywhere inside it", "statement": "A repeat loop played from a file misses no sample wherever inside the loop playback starts, if two updates span at most all buffers but three.", "quantifier": "all files, loops, start positions inside the loop", "why_tests_cant": "Depends on start position, loop bounds and buffer layout together.", "anchors": ["src/IndexableFile.h:96-245", "src/IndexableFile.h:369-407"]}
{"id": "C88", "title": "Ping-pong loops played from files", "statement": "A file with a ping-pong loop, played from the start of the loop, misses no sample, if two updates span at most all buffers but three.", "quantifier": "all files, loop bounds", "why_tests_cant": "Depends on where the end of the loop falls within a block; appears only after the first pass.", "anchors": ["src/IndexableFile.h:96-245"]}
{"id": "C89", "title": "Which ping-pong loops play from files without misses", "statement": "A RAW or WAV file with a ping-pong loop, played forward without interpolation at any constant rate x = n/2^q from a frame p0 before the end of the loop, with all buffers filled at the start, delivers exactly the frames that the to-and-fro walk over the file prescribes, for ever, with no missed sample: at any rate and any update size if all blocks of the loop are buffered at the start, and otherwise if the start is inside the loop, the buffers filled at the start do not reach beyond its end, the frame where the direction changes reaches into the block of the loop end, with start mode \"sample\" frame 0 and the loop start share a block, and two updates of at most B frames span at most all buffers but two. At rate 1 the k-th frame is that of the triangle wave of C12.", "quantifier": "all files, headers, channel counts, loop bounds, start positions, rates, update sizes, block sizes and buffer counts, all k", "why_tests_cant": "Infinite output; the order of the buffers is reversed at both ends, at moments that depend on which block was read last.", "anchors": ["src/ResamplingReader.h:95-515", "src/IndexableFile.h:96-431"]}
{"id": "C90", "title": "A ping-pong loop may be started anywhere", "statement": "A file with a ping-pong loop whose turn falls into the block of the loop end misses no sample wherever playback starts, if two updates span at most all buffers but two.", "quantifier": "all files, loops, start positions and start modes", "why_tests_cant": "Appears only on the way back; depends on start position, loop bounds and buffer layout together.", "anchors": ["src/IndexableFile.h:96-245", "src/IndexableFile.h:369-407", "src/ResamplingReader.h:227-306"]}
{"id": "C91", "title": "Interrupted reloads never corrupt forward playback", "statement": "A RAW or WAV file played forward without loop, without interpolation, at any constant rate x = n/2^q from frame p0, delivers as k-th frame of the whole session the file's frame p0 + floor(k x), except that each sample counted as missed is silent: whenever the sketch calls triggerReload, and at whichever of its writes an audio update interrupts it, however often and with however many bytes of the read arrived. The next update can always be made, and so can the next step of the sketch.", "quantifier": "all files, headers, channel counts, start positions, rates, update sizes, block sizes, buffer counts, and all interleavings of updates and reload steps", "why_tests_cant": "The interruption points are between single writes inside a reload; a corrupted sample would need one particular interleaving, which cannot be provoked on a device.", "anchors": ["src/ResamplingReader.h:190-306", "src/IndexableFile.h:96-295", "src/IndexableFile.h:369-431"]}
{"id": "C92", "title": "Interrupted reloads never corrupt turned playback", "statement": "If the sketch changes the sign of the playback rate between two updates, an update that interrupts a later reload delivers samples of the requested frames, or counts a miss.", "quantifier": "all files, rates, moments of turning and interruption points", "why_tests_cant": "Needs a turn just behind a block boundary together with an interruption of one particular read.", "anchors": ["src/ResamplingReader.h:190", "src/ResamplingReader.h:517-535", "src/IndexableFile.h:96-295"]}
{"id": "C93", "title": "Interrupted reloads keep up as uninterrupted ones do", "statement": "Where a reload between any two updates prevents all misses, misses are also prevented when updates interrupt these reloads.", "quantifier": "all files, update sizes and interruption points", "why_tests_cant": "Needs an interrupt between the last check of a reload and the reset of its marks, again and again.", "anchors": ["src/IndexableFile.h:96-130", "src/IndexableFile.h:369-431"]}
{"id": "C94", "title": "Late reloads are made up for", "statement": "After any execution of forward playback of a RAW or WAV file (no loop, no interpolation, constant rate x = n/2^q), with reloads late, omitted or interrupted at any point: let one reload run to its end, and let the frame to be played next be at most L blocks beyond the buffered ones then. Then L+1 updates of 1 to B frames, each followed by a reload, deliver the right frames with silence for counted misses only, and every session of updates of at most B frames with a reload after each delivers from there on exactly the frames of the file with no further miss, if two updates of B frames span at most all buffers but one.", "quantifier": "all files, headers, channel counts, start positions, rates, block sizes, buffer counts, all interleavings before, all update sizes after", "why_tests_cant": "Any history of late and interrupted reloads; the claim is about all of the playback after it.", "anchors": ["src/ResamplingReader.h:190-306", "src/IndexableFile.h:96-295", "src/IndexableFile.h:369-431"]}
{"id": "C95", "title": "The accuracy bound is nearly sharp", "statement": "There are four 16-bit samples and a single-precision x in [1,2] for which the interpolated value differs by at least 1.055 from the cubic through the points, clamped to 16 bits: the bound of 1.1 (C17) cannot be lowered to 1.05, and the interpolator is not the truncation of the exact value.", "quantifier": "one witness", "why_tests_cant": "A random test meets an error above 1.05 about once in 10^8 inputs.", "anchors": ["src/interpolation.cpp: fastinterpolate"]}
{"id": "C96", "title": "File players stop within N polls of running out", "statement": "With setForceResponse(true) called first and files on players below N: from the update in which a file player runs out of frames on, N calls of runPolled() stop it, whatever else happens to other players, provided players are stopped or played only when no event of theirs waits (runPolled() returned at most 0 after their last update).", "quantifier": "all histories of calls, updates, polls and yields on any number of players", "why_tests_cant": "all interleavings of any number of players", "anchors": ["src/AudioEventResponder.h: triggerEvent, runPolled, addToList, removeFromList", "src/playresmp.h: update, event_response, play, stop"]}
{"id": "C97", "title": "Polled file players stop whatever is called on others", "statement": "With polled events, a file player that ran out of frames and whose close was requested stops when runPolled() is called often enough, also if other players are stopped or played anew while their events wait.", "quantifier": "all histories", "why_tests_cant": "Needs three events in one order, then waiting for ever.", "anchors": ["src/AudioEventResponder.h: clearEvent, attachPolled, addToList", "src/playresmp.h: stop"]}
{"id": "C98", "title": "Varying the rate is like varying the speed of a tape", "statement": "While a RAW or WAV file or an array plays without loop and interpolation, the sketch may set the rate to any multiples of 2^-q (q <= 52) from 0 to X between updates of at most B frames: the k-th frame of an update is the frame at floor(t + k x), with x the rate set last and t the start plus the sum of (frames asked for) times (rate) over the updates before, until the source ends; for files with reloads between updates no sample is missed, if 2 B X + 2 frames fit into all buffers but one. Every float from 2^-21 to 256 is such a rate, with q = 44.", "quantifier": "all files and arrays, channel counts, start positions, sequences of rates and updates of any length", "why_tests_cant": "Unbounded sequences of rates; fractional positions carried over every change without rounding.", "anchors": ["src/ResamplingReader.h:190-306", "src/ResamplingReader.h: setPlaybackRate", "src/IndexableFile.h:96-431"]}
{"id": "C99", "title": "A file can be turned round at any speed without gaps", "statement": "Where files play without misses at rates up to X (C98), they also do if the rate becomes negative, of size up to X.", "quantifier": "all files, rates and positions", "why_tests_cant": "The gap depends on the positions of block borders relative to the turn.", "anchors": ["src/ResamplingReader.h: setPlaybackRate", "src/IndexableFile.h: triggerReload"]}
{"id": "C100", "title": "Reverse playback of files like a tape", "statement": "A RAW or WAV file (or an array) played backwards without loop and interpolation, at rates that the sketch may set to any negative multiples of 2^-q (q <= 52) down to -X between updates of at most B frames until the start of the audio is reached: the k-th frame of an update is the frame at ceil(t + k x), with x the rate set last and t the start plus the sum of (frames asked for) times (rate) over the updates before, until frame 0 has been heard; for files with reloads between updates no sample is missed, if 2 B X + 2 frames fit into all buffers but one, the first frame lies within one block, and this block is at least half inside the file. Playback begins at the last frame of a file without trailing data, or at the frame asked for.", "quantifier": "all files and arrays, channel counts, headers, start positions, sequences of negative rates and updates of any length", "why_tests_cant": "Unbounded sequences of rates; depends on where blocks end relative to every frame.", "anchors": ["src/ResamplingReader.h:190-306", "src/ResamplingReader.h: setPlaybackRate, reset", "src/IndexableFile.h:96-431"]}
{"id": "C101", "title": "Files of any length play backwards without gaps", "statement": "A RAW file played backwards at rate -1.0 in updates of 128 frames with a reload after each misses no sample, whatever its length.", "quantifier": "all file lengths", "why_tests_cant": "Depends on the length modulo the block size.", "anchors": ["src/IndexableFile.h: preLoadBuffers, triggerReload"]}
{"id": "C102", "title": "Setters take effect at one moment", "statement": "Whatever updates interrupt setUseDualPlaybackHead, setCrossfadeDurationInSamples, setInterpolationType, setPlayStart, setLoopType, setLoopStart or setLoopFinish between their single stores, the blocks sent, the events and the final state are those of a call made at once between two of these updates.", "quantifier": "all reader states, arguments, numbers and placements of interrupting updates", "why_tests_cant": "An interrupt between two particular instructions; all states and placements.", "anchors": ["src/ResamplingReader.h: setUseDualPlaybackHead, setCrossfadeDurationInSamples, setInterpolationType, setPlayStart, setLoopType, setLoopStart, setLoopFinish", "src/Resampling*Reader.h", "src/playresmp.h:104-141"]}
{"id": "C103", "title": "setPlaybackRate takes effect at one moment", "statement": "Whatever updates interrupt setPlaybackRate between its stores and comparisons, the blocks sent, the events and the final state are those of a call made at once between two of these updates.", "quantifier": "all reader states, rates and placements of interrupting updates", "why_tests_cant": "An interrupt between two particular instructions.", "anchors": ["src/ResamplingReader.h:517-552", "src/playresmp.h:104-106"]}
{"id": "C104", "title": "loop(n) takes effect at one moment", "statement": "Whatever updates interrupt loop(n) between its stores, the blocks sent, the events and the final state are those of a call made at once between two of these updates.", "quantifier": "all reader states, lengths and placements of interrupting updates", "why_tests_cant": "An interrupt between two particular instructions.", "anchors": ["src/ResamplingReader.h:558-563"]}
{"id": "C105", "title": "Starting and stopping are silent inside", "statement": "Whatever updates interrupt a play call, begin(), stop() or close(): up to the moment the player stops they sound as before the call, from then to the end of the call they send no block and trigger no event, and the player ends in the state an uninterrupted call would have left.", "quantifier": "all reader states, files, arrays and placements of interrupting updates", "why_tests_cant": "An interrupt between any two of dozens of stores, in any state.", "anchors": ["src/playresmp.h:44-102, 155-160", "src/ResamplingReader.h: play, playRaw, playWav, stop, close, begin, reset", "src/Resampling{Array,Sd,Lfs,SerialFlash}Reader.h"]}
{"id": "C106", "title": "From the file to the outputs at changing rates", "statement": "In a sketch that does not poll and in which only players below N play files, play(file) succeeds in any state it reached, and then, as long as yield() is called N times between updates of that player, whatever the other players do, and whenever between these updates the sketch sets its rate to multiples of 2^-q (q <= 52) from 0 to X, before or after the reload: each update that gets its audio blocks transmits the next 128 frames of a tape of the file whose speed is turned at these points (frame floor(t + k x) as the k-th), the last one padded with zeros, and nothing after it; the player has stopped exactly when the last block has been sent; its next update always has a defined result. Without looping and interpolation, if 256 X + 2 frames fit into all buffers but one.", "quantifier": "all histories, files, channel counts, start positions, schedules of any length, sequences of rates, requests of other players", "why_tests_cant": "Unbounded schedules; a rate change may fall before or after the reload; behaviour of other players.", "anchors": ["src/playresmp.h:23-75", "src/playresmp.h:155-218", "src/ResamplingReader.h:95-552", "src/IndexableFile.h:96-431", "src/AudioEventResponder.cpp"]}
{"id": "C107", "title": "From the file to the outputs in reverse at changing rates", "statement": "As C106 for negative rates down to -X: each update that gets its audio blocks transmits the next 128 frames of a tape of the file running backwards (frame ceil(t + k x) as the k-th) until frame 0 has been heard, as long as the rate is not set after the start was reached; if the first frame lies within one block that is at least half inside the file.", "quantifier": "all histories, files, channel counts, start positions, schedules of any length, sequences of negative rates, requests of other players", "why_tests_cant": "Unbounded schedules; a rate change may fall before or after the reload; block borders relative to every frame.", "anchors": ["src/playresmp.h:23-75", "src/playresmp.h:155-218", "src/ResamplingReader.h:95-552", "src/IndexableFile.h:96-431", "src/AudioEventResponder.cpp"]}
{"id": "C108", "title": "Array players do not depend on the other players", "statement": "For every history of calls, updates, polls and reloads of any number of players, player i not playing a file: the results of its play calls, the blocks its updates send, and its state are what the history of only its own calls and updates gives, with any or no other players.", "quantifier": "all histories, numbers and kinds of players, polling flags", "why_tests_cant": "Quantifies over unbounded interleavings with other players.", "anchors": ["src/playresmp.h:23-75", "src/playresmp.h:155-218", "src/playarrayresmp.h", "src/ResamplingReader.h:95-552", "src/ResamplingArrayReader.h", "src/AudioEventResponder.cpp"]}
{"id": "C109", "title": "From an array to the outputs at changing rates", "statement": "After any history in which the player has not played a file, playRaw or playWav of an array succeeds, and then, whatever the other players do and whenever the sketch sets its rate to multiples of 2^-q (q <= 52) from 0 to X: each update that gets its audio blocks transmits the next 128 frames of a tape whose speed is turned at these points, and after its end blocks padded with zeros, then silence; no step is undefined. In reverse the same from the first frame p0 down to frame 0, as long as the rate is not set after the start was reached. Without looping and interpolation.", "quantifier": "all histories, arrays, channel counts, start positions, schedules of any length, sequences of rates", "why_tests_cant": "Unbounded schedules and rates; the other players interleave arbitrarily.", "anchors": ["src/playresmp.h:23-75", "src/playresmp.h:155-218", "src/playarrayresmp.h", "src/ResamplingReader.h:95-552", "src/ResamplingArrayReader.h"]}
{"id": "C110", "title": "Looped arrays to the outputs", "statement": "As C109 for a repeat or ping-pong loop ls..lf set after the start, at a constant rate num/2^q forwards or in reverse: the transmitted frames are those of an exact head going round, or to and fro, for ever.", "quantifier": "all histories, arrays, channel counts, loops, rates, schedules of any length", "why_tests_cant": "Endless playback; drift would only show after many rounds.", "anchors": ["src/playresmp.h:23-75", "src/playresmp.h:155-218", "src/playarrayresmp.h", "src/ResamplingReader.h:95-552", "src/ResamplingArrayReader.h"]}
{"id": "C111", "title": "Interpolated arrays to the outputs", "statement": "As C109 with linear or cubic interpolation at a constant rate in (0,1]: update after update the transmitted frames are the interpolation of the neighbouring samples of the array at k*rate, within the bounds of C74 and C75.", "quantifier": "all histories, arrays, up to 8 channels, rates on the grid, schedules", "why_tests_cant": "Real-valued fractions, unbounded schedules.", "anchors": ["src/playresmp.h:23-75", "src/playresmp.h:155-218", "src/playarrayresmp.h", "src/ResamplingReader.h:95-552", "src/ResamplingArrayReader.h", "src/interpolation.cpp"]}
{"id": "C112", "title": "Looped files to the outputs", "statement": "As C85 for files in a repeat or ping-pong loop: each update that gets its audio blocks transmits the next 128 frames of the loop, for ever, as long as yield() is called N times between its updates and the loop is buffered as a whole or two updates span at most all buffers but three (repeat), or the conditions of C88-C90 hold (ping-pong).", "quantifier": "all histories, files, channel counts, loops, rates, schedules of any length, requests of other players", "why_tests_cant": "Endless playback across buffer reloads and other players.", "anchors": ["src/playresmp.h:23-75", "src/playresmp.h:155-218", "src/ResamplingReader.h:95-552", "src/IndexableFile.h:96-431", "src/AudioEventResponder.cpp"]}
{"id": "C113", "title": "Interpolated files to the outputs", "statement": "As C85 with linear or cubic interpolation at a constant rate in (0,1]: the transmitted frames are the interpolation of the neighbouring samples of the file at k*rate, up to its last frame.", "quantifier": "all histories, files, up to 8 channels, rates on the grid, schedules of any length, requests of other players", "why_tests_cant": "Real-valued fractions at buffer borders; unbounded schedules.", "anchors": ["src/playresmp.h:23-75", "src/playresmp.h:155-218", "src/ResamplingReader.h:95-552", "src/IndexableFile.h:96-431", "src/interpolation.cpp", "src/AudioEventResponder.cpp"]}
{"id": "C114", "title": "The array examples stay inside their sample", "statement": "Whatever the potentiometer, the clock and the timing of updates, the sketches array.ino and sampleloader.ino never read outside their sample and have no other undefined behaviour.", "quantifier": "all samples, sequences of potentiometer values, moments at which 500 ms have passed, placements of updates and yields, allocation failures", "why_tests_cant": "Depends on the head position at the moment the knob crosses the middle; unbounded runs.", "anchors": ["examples/array/array.ino:21-60", "examples/sampleloader/sampleloader.ino", "src/ResamplingReader.h", "src/ResamplingArrayReader.h"]}
{"id": "C115", "title": "The array examples start their sample again", "statement": "array.ino and sampleloader.ino play their sample again once it has ended and 500 ms have passed.", "quantifier": "all runs of the sketches", "why_tests_cant": "A test shows one run; that no run at all restarts needs all schedules.", "anchors": ["examples/array/array.ino:21-60", "examples/sampleloader/sampleloader.ino", "src/ResamplingReader.h", "src/ResamplingArrayReader.h"]}
{"id": "C116", "title": "The file examples never hang", "statement": "Whatever the potentiometer, the clock, the timing of updates and the file (also if missing or empty), the sketches sd_raw.ino, sd_wav.ino, littlefs_raw.ino and serialflash.ino never hang and have no undefined behaviour.", "quantifier": "all files, sequences of potentiometer values, clocks, placements of updates and yields, allocation failures", "why_tests_cant": "Hangs depend on which buffers were read when the knob crosses the middle; unbounded runs with late reloads.", "anchors": ["examples/sd_raw/sd_raw.ino:22-66", "examples/sd_wav/sd_wav.ino", "examples/LittleFS/littlefs_raw.ino", "examples/SerialFlash/serialflash.ino", "src/ResamplingReader.h", "src/IndexableFile.h"]}
{"id": "C117", "title": "File players used forwards never hang and never misbehave", "statement": "Any number of SD, LittleFS and serial flash players, in any history of starts of raw files (below 1 GB, 1 to 8 channels), of WAV files, sound or not (outside the sets of C02 and C03, 1 to 8 channels, below 1 GB) or of missing files, stops interrupted by updates, rates from 0 to 2^26, all other setters with any arguments (loop off, one head, start at the first sample), reloads, updates with any allocation failures, and yields as late as one likes: every call returns and none has undefined behaviour.", "quantifier": "all histories, numbers and kinds of players, files, arguments and interleavings", "why_tests_cant": "Unbounded histories of any number of players; a hang or a wild read needs one particular history.", "anchors": ["src/playresmp.h:23-218", "src/ResamplingReader.h:95-552", "src/IndexableFile.h:96-431", "src/Resampling{Sd,Lfs,SerialFlash}Reader.h", "src/AudioEventResponder.cpp", "src/waveheaderparser.h"]}
{"id": "C118", "title": "The piano example never hangs or misbehaves", "statement": "PlayPiano.ino with any score of waits, notes on and notes off for its eight voices (velocities below 128) that ends with a stop command, such as the one in the repository, any card (each sample missing or a WAV file as in C117), any clock, any behaviour of the envelopes and any timing of the audio interrupts and yields: every pass of loop() returns and none has undefined behaviour, if pow() returns rates from 0 to 2^26 for -3 to 2 semitones.", "quantifier": "all scores, cards, clocks, envelopes, interleavings, numbers of passes", "why_tests_cant": "Unbounded runs of eight players with arbitrary interleavings, files and scores.", "anchors": ["examples/PlayPiano/PlayPiano.ino:88-312", "src/playsdresmp.h", "src/playresmp.h:23-218", "src/ResamplingReader.h", "src/IndexableFile.h"]}
{"id": "C119", "title": "The piano example plays its score in order and in time", "statement": "In the runs of C118 each pass of loop() carries out exactly the next event of the score if the time set by the last wait has come, and none before; a note from 33 to 86 with positive velocity starts on its voice the one of the nine samples from which it is 3 semitones down to 2 up, at exactly that shift, and any other note does nothing.", "quantifier": "all scores, clocks, cards, interleavings", "why_tests_cant": "All scores and clocks, including those that wrap round.", "anchors": ["examples/PlayPiano/PlayPiano.ino:88-312", "src/playsdresmp.h", "src/playresmp.h:23-218", "src/ResamplingReader.h", "src/IndexableFile.h", "examples/PlayPiano/prelude846.c"]}
{"id": "C120", "title": "The piano example understands all commands of its score format", "statement": "Notes on any of the 16 generators and the restart command 0xE0 listed at the top of updatePlayer are carried out without undefined behaviour.", "quantifier": "all scores", "why_tests_cant": "The shipped score uses neither.", "anchors": ["examples/PlayPiano/PlayPiano.ino:221-265"]}
{"id": "C121", "title": "The piano example stops silent voices", "statement": "After every pass of loop(), whatever the score, card and timing, no voice whose envelopes are inactive when polled is streaming its sample.", "quantifier": "all scores, cards, envelopes, interleavings, numbers of passes", "why_tests_cant": "A voice left streaming is not audible; depends on the order of events in a pass.", "anchors": ["examples/PlayPiano/PlayPiano.ino:88-312", "src/playsdresmp.h", "src/playresmp.h:23-218", "src/ResamplingReader.h", "src/IndexableFile.h"]}
{"id": "C122", "title": "sd_play_all lists the right files", "statement": "A file is listed exactly if its name contains .WAV or .wav behind its first character and does not begin with an underscore.", "quantifier": "all names", "why_tests_cant": "All strings; several occurrences of the extension.", "anchors": ["examples/sd_play_all/sd_play_all.ino:84-140"]}
{"id": "C123", "title": "sd_play_all plays all files in turn", "statement": "On any card with 1 to 65535 such files (sound or not, as in C117) among any others, whatever the clock, the potentiometer (in its upper half) and the timing of the audio interrupts and yields, the sketch never hangs and has no undefined behaviour, and the k-th file it starts is number k mod n of the n files in the order of the directory.", "quantifier": "all directories, clocks, potentiometer values, interleavings, numbers of passes", "why_tests_cant": "Unbounded runs; wrap-around of the index; any interleaving.", "anchors": ["examples/sd_play_all/sd_play_all.ino:24-140", "src/playsdresmp.h", "src/playresmp.h:23-218", "src/ResamplingReader.h", "src/IndexableFile.h"]}
{"id": "C124", "title": "sd_play_all works on any card", "statement": "Whatever files there are on the card, the sketch has no undefined behaviour.", "quantifier": "all directories", "why_tests_cant": "The card without WAV files and the one with 65536 are never tried.", "anchors": ["examples/sd_play_all/sd_play_all.ino:24-140", "src/playsdresmp.h", "src/playresmp.h:23-218", "src/ResamplingReader.h", "src/IndexableFile.h"]}
{"id": "C125", "title": "Players of all kinds used forwards never hang and never misbehave", "statement": "As C117, with array players among the others: raw data of 1 to 8 channels inside the array, WAV files in memory, sound or not (headers inside the array, outside the set of C02, 1 to 8 channels, accepted data complete) and the starts that take a length, each array player either at rates from 0 to 1 with any interpolation or at rates from 0 to 2^26 without cubic interpolation.", "quantifier": "all histories, numbers and kinds of players, files, arrays, arguments and interleavings", "why_tests_cant": "Unbounded histories of any number of players; a hang or a wild read needs one particular history.", "anchors": ["src/playresmp.h:23-218", "src/ResamplingReader.h:95-552", "src/IndexableFile.h:96-431", "src/Resampling{Sd,Lfs,SerialFlash}Reader.h", "src/AudioEventResponder.cpp", "src/waveheaderparser.h", "src/ResamplingArrayReader.h", "src/playarrayresmp.h"]}
{"id": "C126", "title": "Players of all kinds used forwards in polled mode never hang and never misbehave", "statement": "As C125 in polled mode, with runPolled() called anywhere, if no player is played or stopped while its event may wait (the discipline of C96).", "quantifier": "all histories, numbers and kinds of players, files, arrays, arguments and interleavings", "why_tests_cant": "Unbounded histories of any number of players and events.", "anchors": ["src/playresmp.h:23-218", "src/ResamplingReader.h:95-552", "src/IndexableFile.h:96-431", "src/Resampling{Sd,Lfs,SerialFlash}Reader.h", "src/AudioEventResponder.cpp", "src/waveheaderparser.h", "src/ResamplingArrayReader.h", "src/playarrayresmp.h"]}
{"id": "C127", "title": "The file access example never misbehaves", "statement": "Whatever the WAV file on the card, FileAccess.ino has no undefined behaviour.", "quantifier": "all files, clocks, interleavings", "why_tests_cant": "Depends on the length of the file modulo the block size; the shipped file is one length.", "anchors": ["examples/FileAccess/FileAccess.ino:45-195", "src/AudioEventResponder.h:48-69", "src/playresmp.h:23-218", "src/ResamplingReader.h", "src/IndexableFile.h"]}
{"id": "C128", "title": "The file access example never reloads while it copies", "statement": "In any run of FileAccess.ino, with audio interrupts and calls of yield() anywhere in loopCopyUpdate(), nothing of the file played is touched inside it: file position, buffered data and loop are the same after it as before.", "quantifier": "all files, runs, clocks, interleavings", "why_tests_cant": "A clash needs a yield() inside the filesystem library just when a reload is pending.", "anchors": ["examples/FileAccess/FileAccess.ino:45-195", "src/AudioEventResponder.h:48-69", "src/playresmp.h:23-218", "src/ResamplingReader.h", "src/IndexableFile.h"]}
{"id": "C129", "title": "The file access example copies faithfully", "statement": "In any run of FileAccess.ino each copy reported as complete has exactly the content of the source file, with its size as the count printed, whatever random() returns; and if the copy can be opened, one is reported after at most size/100 + 3 passes of loop().", "quantifier": "all files below 2 GB, random numbers, runs", "why_tests_cant": "All chunkings; sizes that are a multiple of the chunks.", "anchors": ["examples/FileAccess/FileAccess.ino:47-122"]}
{"id": "C130", "title": "The file access example plays its rates in turn", "statement": "In any run of FileAccess.ino the i-th start of playback (from 0) is at rates[(i+1) mod 4], and after any pass of loop() whose clock is later than the last start plus 1.9 s nothing plays.", "quantifier": "all files, clocks, runs, interleavings", "why_tests_cant": "Unbounded runs, any interleaving.", "anchors": ["examples/FileAccess/FileAccess.ino:165-195"]}
{"id": "C131", "title": "Cubic interpolator accuracy with fused arithmetic", "statement": "However the compiler contracts products and sums of fastinterpolate() into fused operations (any combination, also across statements), for any four 16-bit samples and any single-precision x in [1,2] the value is a 16-bit value within 1.125 of the cubic through the points clamped to 16 bits, and nothing in the computation is undefined.", "quantifier": "all samples, abscissae and combinations of fused operations", "why_tests_cant": "Depends on compiler, flags and processor; tests run on one of them, not on the Teensy.", "anchors": ["src/interpolation.cpp:36-55", "src/ResamplingReader.h:393-493"]}
{"id": "C132", "title": "The interpolator returns a sample at its own position", "statement": "With some choice of fused operations fastinterpolate() at x = 1 returns its second sample exactly.", "quantifier": "all samples", "why_tests_cant": "65536 samples, and another compiler gives other results.", "anchors": ["src/interpolation.cpp:36-55", "src/ResamplingReader.h:393-493"]}
{"id": "C133", "title": "Linear interpolation and crossfading with fused arithmetic", "statement": "However the compiler contracts the mixture g*a + (1-g)*b of linear interpolation and crossfading, for any gain g in [0,1] and 16-bit a and b the result is a 16-bit value, within 1 + 2^-35 of the exact mixture, at most 1 outside the range of a and b and not outside it away from zero.", "quantifier": "all gains, samples and choices of fused operations", "why_tests_cant": "Depends on compiler, flags and processor.", "anchors": ["src/interpolation.cpp:36-55", "src/ResamplingReader.h:393-493"]}
{"id": "C134", "title": "Until a reload is serviced, a file plays what opening it buffered", "statement": "Opening a file for forward playback buffers the samples from the beginning of the block it starts in, as many as all buffers hold. Until a reload is serviced, whatever is called (reads of any length, any setter, any rate), the file player behaves exactly like an array player whose memory holds just these samples, as long as that one stays inside them, and no sample is missed. If the whole file fits into the buffers, that is an array player on the whole file.", "quantifier": "all files, histories of calls without reload, buffer configurations, start positions", "why_tests_cant": "Unbounded sessions of arbitrary calls; the result depends on which samples the buffers hold.", "anchors": ["src/IndexableFile.h:96-431", "src/ResamplingReader.h:95-552", "src/ResamplingReader.h:554-642"]}
{"id": "C135", "title": "Files that fit into the buffers play without any reload", "statement": "A RAW or WAV file that fits into the buffers, started in its first block, plays completely at any exact rate from 0 up without a single reload: the frames delivered are those of pitch-shifted playback, and no sample is missed.", "quantifier": "all files that fit, channel counts, rates on the grid, reads of any sizes", "why_tests_cant": "All files, rates and chunkings; a file one block longer fails.", "anchors": ["src/IndexableFile.h:96-431", "src/ResamplingReader.h:95-552", "src/ResamplingReader.h:554-642"]}
{"id": "C136", "title": "The reading tests pass for every length the buffers hold", "statement": "The forward reading tests of test/low_level/sd without loops (rates 2, 1 and 1/2, RAW and WAV) pass for every number of samples from 1 (for rate 2 from 0) to 14336, for WAV files to 14314, not only for the lengths written in them.", "quantifier": "all lengths that fit into the buffers, all contents of uninitialised memory", "why_tests_cant": "The tests have a handful of lengths.", "anchors": ["test/low_level/sd/test_raw_mono_noloop_forward_double_rate_playback.cpp:16-61", "test/low_level/sd/test_raw_mono_noloop_forward_playback.cpp:52-94", "test/low_level/sd/test_raw_mono_loop_forward_playback.cpp:58-98", "test/low_level/sd/test_wav_mono_noloop_forward_playback.cpp:13-115", "test/low_level/sd/test_wav_mono_loop_forward_playback.cpp:181-222"]}
{"id": "C137", "title": "The reading tests compare every sample they read", "statement": "A block of samples passes the comparison of the reading tests only if all its samples are the expected ones.", "quantifier": "all blocks", "why_tests_cant": "It is about the tests themselves.", "anchors": ["test/low_level/sd/test_raw_mono_noloop_forward_double_rate_playback.cpp:50-56", "test/low_level/sd/test_wav_mono_noloop_backward_playback.cpp:56-58"]}
{"id": "C138", "title": "Small files loop without any reload", "statement": "A RAW or WAV file that fits into the buffers, started forwards in its first block, plays any repeat or ping-pong loop set after it was opened, at any exact positive rate, for ever without a single reload: the frames are exactly those of the loop, and no sample is missed.", "quantifier": "all files that fit, loops, loop types, rates on the grid, start modes, reads of any sizes and number", "why_tests_cant": "Endless playback; all loops and rates.", "anchors": ["src/IndexableFile.h:96-431", "src/ResamplingReader.h:95-552", "src/ResamplingReader.h:554-642"]}
{"id": "C139", "title": "The loop tests pass for every length the buffers hold", "statement": "The loop tests of test/low_level/sd (RAW, WAV, WAV with a loop end) pass for every number of samples that fits into the buffers, every loop end and every number of reads.", "quantifier": "all lengths, loop ends and numbers of reads, all contents of uninitialised memory", "why_tests_cant": "The tests have one length.", "anchors": ["test/low_level/sd/test_raw_mono_loop_forward_playback.cpp:13-56", "test/low_level/sd/test_wav_mono_loop_forward_playback.cpp:21-179"]}
{"id": "C140", "title": "Until a reload is serviced, a file opened for reverse playback plays what opening it buffered", "statement": "Opening a file for reverse playback buffers the block it starts in and the blocks before it, as many as there are buffers; only the one block if less than half of it is in the file. Until a reload is serviced, whatever is called (reads of any length, any setter, any rate), the file player behaves exactly like an array player whose memory holds just these samples, as long as that one stays inside them, and no sample is missed.", "quantifier": "all files below 2 GB, histories of calls without reload, buffer configurations, start positions", "why_tests_cant": "Unbounded sessions of arbitrary calls; the result depends on which samples the buffers hold.", "anchors": ["src/IndexableFile.h:96-431", "src/ResamplingReader.h:95-552", "src/ResamplingReader.h:554-642"]}
{"id": "C141", "title": "Files that fit into the buffers play backwards without any reload", "statement": "A file that fits into the buffers, opened for reverse playback at its end, behaves without a single reload like an array player on the whole file.", "quantifier": "all files that fit, histories of calls without reload", "why_tests_cant": "It fails only for files whose last block is less than half full; the backward tests have one block.", "anchors": ["src/IndexableFile.h:96-431", "src/ResamplingReader.h:95-552", "src/ResamplingReader.h:554-642", "test/low_level/sd/test_wav_mono_noloop_backward_playback.cpp:22-112"]}
{"id": "C142", "title": "Small files play backwards without any reload if their last block is half full", "statement": "A RAW or WAV file that fits into the buffers, started backwards in its last block, plays completely at any exact negative rate without a single reload if that block is the only one or at least half full: the k-th frame delivered is the starting frame minus floor(k x), until the beginning is passed, and no sample is missed.", "quantifier": "all such files, channel counts, start modes, rates on the grid, reads of any sizes", "why_tests_cant": "All files, rates and chunkings; it depends on how full the last block is.", "anchors": ["src/IndexableFile.h:96-431", "src/ResamplingReader.h:95-552", "src/ResamplingReader.h:554-642"]}
{"id": "C143", "title": "The backward reading test passes for every length the buffers hold", "statement": "The backward reading test of test/low_level/sd (WAV, rate -1) passes for every number of samples from 1 to 14314.", "quantifier": "all lengths that fit into the buffers, all contents of uninitialised memory", "why_tests_cant": "The test has one length, 258.", "anchors": ["test/low_level/sd/test_wav_mono_noloop_backward_playback.cpp:22-66", "src/IndexableFile.h:367-407"]}
{"id": "C144", "title": "The array reading tests pass for arrays of every length", "statement": "The tests of test/low_level/array, which count the frames read (mono at rate 1 with linear interpolation, stereo at rate 1/2), pass for an array of every number of bytes below 2^31, with any contents.", "quantifier": "all arrays", "why_tests_cant": "The tests have one array each.", "anchors": ["test/low_level/array/test_array_mono_loop_forward_playback.cpp:17-43", "test/low_level/array/test_array_stereo_loop_forward_playback.cpp:27-55"]}
