# Formal model of teensy-variable-playback

Source: `/repo/src` (C++ templates for the Teensy audio library), read as text.  The model is Gallina, Coq 8.16.1,
with Flocq for floating point and coq-record-update for record syntax.
Platform modelled: Teensy (ILP32: `int`, `long`, `size_t`, pointers are 32 bit), GCC, IEEE-754 binary32/binary64,
round to nearest even, no excess precision.  The reader is modelled without FMA contraction, which GCC, as far as known, uses by default
where the processor has it (Teensy 4); `ContractModel.v` has the only three expressions it could change, with any
choice of fused operations, and C131-C133 show that the bounds the other claims rest on hold for all choices.

## 1. Conventions

* `Machine.v`: result monad `Ok a | UB reason | NoFuel`.  C++ undefined behaviour (signed overflow, division by zero,
  access outside an object or vector, null dereference, float-to-integer conversion out of range, zero-length or too
  large variable-length array, a non-pointer passed to `%s`) is the distinct outcome `UB`; it is never given a value.
  `u32 s32 s16 u16` are the conversions GCC defines.
* Loops the C++ text does not bound (`while(!readOK)`, `while(count<nsamples)`, the `while` of `triggerReload`) take
  fuel.  "Hangs" is "`NoFuel` for every fuel"; a theorem that concludes about `Ok` says so of every fuel that gives it,
  or states that some fuel does.
* `Floats.v`: `double` and `float` are Flocq `binary_float` with executable operations.  Theorems over reals go through `B2R`.
* The user's array is a finite byte memory; access outside is `UB UbOutOfBounds`.  A file is a size and a byte function,
  with a position and a policy for seeks past the end.  Cache buffers start with arbitrary contents (uninitialised heap).
* One record per C++ class; each function is one definition with the file and lines it models.
* Specifications are in `*Spec.v` (and small definitions next to the theorems); they do not use the model's helpers
  except to run it.  `Props_*.v` contain only theorems closed by `exact lemma`, examples that meet their hypotheses,
  and `Print Assumptions`.
* A property that is false of the model has a theorem `Cxx_refuted...` with a concrete witness, its true part is
  proved as `..._partial`, and the exact true version is a property of its own.

## 2. What is modelled

| source | model | not modelled in it |
|---|---|---|
| `waveheaderparser.h` | `WavModel.v`, all functions | printed text (only the undefined `%s` calls) |
| `interpolation.cpp` | `InterpModel.v`, both functions | - |
| `loop_type.h`, `interpolation.h` | enumerations in `CacheModel.v`, `ReaderModel.v` | - |
| `IndexableFile.h` | `CacheModel.v`, sequential; `RaceModel.v`, `RacePlay.v`, `triggerReload`/`loadBuffer` interrupted by fetches and updates | `getStatus`, `getBufInfo` (debug output), writing through `operator[]`, allocation failure, PSRAM flag |
| `Indexable{SD,LittleFS,SerialFlash}File.h` | template parameters and seek policies in `CacheModel.v` | the drivers themselves |
| `ResamplingReader.h` | `ReaderModel.v`: all of play, read, readNextValue, rate, loop, crossfade, interpolation and position functions; `MillisModel.v`: the constant `B2M` | `Serial` output; `InterpolationData.x` (write-only) |
| `Resampling{Array,Sd,Lfs,SerialFlash}Reader.h` | `ReaderModel.v` | - |
| `AudioEventResponder.{h,cpp}` | `ResponderModel.v`, all list functions with explicit links | `setForceResponse` is modelled; timers are not |
| Teensyduino `EventResponder` | `ResponderModel.v`: yield list, trigger, clear, attach, detach, runFromYield | timers, interrupts-only events |
| `playresmp.h`, `play{array,sd,lfs,serialflash}resmp.h` | `PlayerModel.v`: every member function, `update()`, event servicing | `AudioStream` scheduling (the environment calls update at any time) |
| `examples/{array,sampleloader,sd_raw,sd_wav,LittleFS,SerialFlash}` | `SketchModel.v`: `setup()`, `loop()`, `getPlaybackRate` with any potentiometer values, clock and updates between the calls | Serial, audio shield, mounting the card; `sampleloader`'s loading of the file into memory |
| `examples/PlayPiano` | `PianoModel.v`: `noteOn`, `noteOff`, `poll`, `updatePlayer`, `loop()`, any score; `PianoScore.v`: `prelude846.c` | envelopes, mixers, `pow()` (a parameter; C118 and C119 assume rates 0..2^26), Serial |
| `examples/sd_play_all` | `PlayAllModel.v`: all functions, any directory of files | allocation failure, subdirectories named like WAV files, Serial |
| `examples/FileAccess` | `AccessModel.v`: `loopCopyUpdate`, `loop()`, compiled for SD | failing writes, the copy into memory in `setup()` (unused for SD), Serial |

Simplifications are listed at the head of each model file.  The main ones:

* `std::vector<indexedbuffer*>` is a list of buffer values (the pointers are distinct).
* The counter of failed fetches is unbounded.
* Sketch-level calls are one step each with respect to `update()`, except in `CallModel.v`, where every call is the
  sequence of its loads and stores and updates may come in between (C102-C105); there each load or store of a field is
  atomic and the compiler keeps their order.  `stop()` is also modelled with updates of other players in between (`WStop`).
* A reload is atomic except in `RaceModel.v` and `RacePlay.v`.
* Teensyduino's EventResponder and AudioStream are transcribed from their documented behaviour, not from `/repo`
  (their sources are not part of it).
* Heap memory is a count of live blocks; allocation succeeds, except audio blocks, which may be refused at any time.

Comparison with recordings: the repository has reference outputs in `test/resources/reference`.  The tests read
both files with `istream_iterator<int16_t>`, that is as decimal text, so they compare nothing ("RIFF" is not a number).
Checked in the development: the model, run on `kick.raw` at rate 0.7437 with cubic interpolation, gives the first 128
samples of the recording (`as_recorded`).  Not part of the development, from one-off runs outside it: a run of the Coq
model (rates 0.7437, 1 and -0.5) and of a Python re-implementation of it (sizes of the differences; rates 1.7437, 8.7437
and 2).  They agree with the recording for 361 samples at 0.7437; 45 of its 4352 samples differ, by 1, within C75.  At rate
1 most samples are off by 1 and none by more.  At rate 2 sample 1 is 665 in one and 0 in the other: at rates above 1 the
first update reads `kick_raw[-1]`, which is `UB` here.  The recording at -0.5 becomes non-silent two samples earlier than
the model; presumably it was made with an older version of the code (-1 was not run).

Not modelled at all: drivers and file systems, `TeensyVariablePlayback.h` (includes only), the tests (except, of
`test/low_level/sd`, the forward reading and loop tests and the backward test at rate -1: `UnitModel.v`, `UnitLoopModel.v`,
`UnitBackModel.v`; and those of `test/low_level/array`: `UnitArrayModel.v`), the example `midilooper` (it calls `startLoop` and uses `lastSamplePlayed`, which do not exist),
CMake files, stereo interleaving outside the reader.

## 3. Files of the development

| files | content |
|---|---|
| `Machine Floats FloatFacts` | integers, monad, floats and what their operations mean over the reals |
| `WavModel WavSpec WavProofs WavPlayProofs WavFinal Props_Wav` | WAV headers and opening WAV data |
| `InterpModel CubicProofs LagrangeProofs QuadProofs InterpSafe InterpWalk InterpCases Props_Interp` | interpolators, interpolated playback |
| `ReaderModel ReaderFacts ReaderSpec Sessions StreamFacts Walk ForwardProofs PlayProofs Props_Chunk Props_Play` | reader; playback of arrays at constant rate |
| `LoopSpec LoopProofs HistSpec HistProofs HistFinal Props_Loop` | looping; safety over all call histories |
| `DriftProofs DriftCases Props_Drift` | rounding of the position under rate changes |
| `FadeSpec FadeProofs FadeLoop FadeCases Props_Fade` | second playback head and crossfades |
| `CacheModel CacheFacts CacheSpec CacheProofs CacheFinal Props_Cache` | buffered files |
| `RaceModel RaceProofs Props_Race` | reloads interrupted by the audio update |
| `RacePlay RaceSpec RaceCache RaceFile RaceOpen RaceCases Props_RacePlay` | playback while updates interrupt reloads: machine, invariant, delivered frames, counterexamples |
| `BumpProofs LateCache LateFile LateOpen LateSpec LateCases Props_Late` | how playback catches up after late or interrupted reloads |
| `FileSpec WindowProofs FileProofs FilePlay FileForward Props_File` | playback from files |
| `MirrorSpec MirrorProofs MirrorFinal TimingProofs Props_Mirror` | files against arrays, timing |
| `PartProofs TrackProofs TrackFinal TrackSpec TrackPlay TrackCases Props_Track` | interpolated forward playback of files |
| `LoopWindow LoopFileSpec LoopFile LoopPath LoopOpen LoopCases Props_LoopFile` | loops played from files: order of the buffers, walk, delivered frames, counterexamples |
| `PongSpec PongWindow PongFile PongPath PongOpen PongCases Props_PongFile` | ping-pong loops played from files: the same, with the order of the buffers reversed at both ends |
| `TapeSpec TapeProofs TapeCases Props_Tape` | playback while the rate changes |
| `BackSpec BackWindow BackFile BackProofs BackOpen BackCases Props_Back` | reverse playback of files and arrays while the rate changes |
| `StageSpec StageProofs StageCases Props_Stage` | from the file to the transmitted blocks, with other players |
| `MillisModel MillisProofs MillisCases Props_Millis` | times in milliseconds |
| `ResponderModel ResponderSpec ResponderProofs QueueProofs Props_Responder` | event responder |
| `PlayerModel LifeSpec UpdateProofs LifeProofs WorldProofs ScheduleProofs PlayerCases Props_Player` | players |
| `PolledSpec PolledProofs PolledCases Props_Polled` | players with polled events: stopping at the end of a file |
| `CallModel CallSpec CallProofs CallTweak CallAtomic CallQuiet CallRate CallCases Props_Call` | calls of the sketch interrupted by updates |
| `ReelSpec ReelProofs ReelOpen ReelCases Props_Reel` | from the file to the outputs at changing rates |
| `SoloSpec SoloProofs SoloPlay OutSpec StageMore SoloCases Props_Solo` | array players alone and among others; arrays, loops and interpolation up to the outputs |
| `RateProofs` | setPlaybackRate with two heads (C43) |
| `SketchModel SketchSpec SketchProofs SketchArray FileSafe SketchFile SketchCases SketchRuns SketchOnce Props_Sketch` | the example sketches; safety of forward file playback with late reloads |
| `ManySpec ManyProofs ManyCases Props_Many` | any number of file players used forwards |
| `PianoModel PianoSpec PianoProofs PianoQuiet PianoScore PianoCases Props_Piano` | the piano example with any score |
| `PlayAllModel PlayAllSpec PlayAllProofs PlayAllCases Props_PlayAll` | the example that plays all files of a card |
| `FleetSpec ArraySafe FleetProofs FleetPolled FleetCases Props_Fleet` | any number of players of all four kinds used forwards, also in polled mode |
| `AccessModel AccessSpec AccessProofs AccessCases Props_Access` | the example that plays a file and copies it |
| `ContractModel ContractProofs ContractCases Props_Contract` | fused multiply-add; comparison with a recording |
| `HeldSpec HeldProofs HeldPlay Props_Held` | files played without any reload |
| `UnitModel UnitProofs UnitCases Props_Unit` | the forward reading tests of test/low_level/sd; cases for the files above |
| `HeldLoopSpec HeldLoop UnitLoopModel UnitLoop Props_UnitLoop` | loops of files without any reload; the loop tests of test/low_level/sd |
| `HeldBackSpec HeldBack Props_HeldBack` | files opened for reverse playback, without any reload |
| `BackAloneSpec BackAlone UnitBackModel UnitBack Props_BackAlone` | small files played backwards without any reload; the backward test of test/low_level/sd |
| `UnitArrayModel UnitArray Props_UnitArray` | the reading tests of test/low_level/array |
| `ReplaySpec ReplayProofs ReplayCases Props_Replay` | starting again on a used object |

## 4. Results

Statements are in `properties.jsonl`, exact theorems in `Props_*.v`.

| property | status | theorems | note |
|---|---|---|---|
| C01 WAV header fields are decoded faithfully | proved | `C01_roundtrip` `C01_list` `C01_data` | all field values |
| C02 WAV header acceptance is exactly the documented format | partial | `C02_accepts_partial` `C02_ub` `C02_refuted` | acceptance is proved to be exactly the documented format; "without undefined behaviour" is REFUTED, and the exact set of undefined inputs is proved (C02_ub) |
| C03 Opening a WAV file either plays it or cleanly refuses | partial | `C03_wav_file_partial` `C03_result_partial` `C03_missing_file` `C03_refuted_wrap` `C03_refuted_ub` | REFUTED in full (wrapping LIST size, RIFF-but-not-WAVE). Proved for every file outside these two sets that does not declare zero channels |
| C04 Playing an in-memory WAV plays the header's data region | proved | `C04_accepts` `C04_plays` | headers inside the array and outside the undefined set of C02, at least one channel |
| C05 Unity-rate playback is the identity | proved | `C05_unity` `C05_blocks` `C05_concat` | arrays, any channel count, any block sizes |
| C06 Block size does not change the sound | proved | `C06_split` `C06_unsplit` | every reader state, all block sizes; state equality is exact |
| C07 Exact pitch for every single-precision rate | proved | `C07_exact_pitch` | arrays; rates given as float >= 2^-29 with (rate+1)*channels <= 2^30 (no overflow of one step) |
| C08 Bounded drift under arbitrary rate changes | partial | `C08_step_partial` `C77_drift` `C77_heard` `C08_refuted` | REFUTED for rates of 2^31 and more, whose conversion to int is undefined. Every step that is defined moves by the rate up to 2^-53 (\|rate\|+1) and leaves less than one frame pending (C08_step_partial, all sources, loop types and interpolations). Over any sequence of rates and reads with one head and no loop: C77 |
| C09 Non-looping playback ends, after the right number of frames | proved | `C09_count` | arrays; exactly accumulated rates num/2^q |
| C10 Reverse playback is the time reversal | partial | `C10_mono_partial` `C10_from_partial` `C10_actual` `C10_refuted` `C10_refuted_file` `C100_raw` `C100_wav` | REFUTED in full: multi-channel arrays play only the first 1/n (C10_refuted; C10_actual says what is played instead), and a file whose last block is less than half full plays almost nothing in reverse (C10_refuted_file). True fragments proved: mono arrays, and any channel count with an explicit start frame; files whose first block is at least half full (C100) |
| C11 Repeat loop is exactly periodic | proved | `C11_repeat` `C11_periodic` | arrays, any channel count, every start mode |
| C12 Ping-pong loop is a triangle | partial | `C12_triangle_partial` `C12_refuted_leaves` `C12_refuted_skips` | REFUTED in full: with the default start mode the way back runs to frame 0, and with 3+ channels the turn skips frames. The exact frame sequence is proved for all cases (C12_triangle_partial); see C51 for the true fragment |
| C13 Looping playback never ends, never stalls | partial | `C13_endless_partial` `C13_refuted` `C13_empty_loop` | REFUTED in full: a one-frame stereo reverse repeat loop hangs. True fragment proved for every history (see C53) |
| C14 Array playback never reads outside the array | partial | `C14_safe_partial` `C14_refuted` `C14_refuted_parked` | REFUTED in full: reversal exactly at the end reads outside the array. True fragment proved for every history (see C52) |
| C15 Channels never swap | partial | `C15_frames_partial` `C15_refuted` | REFUTED in full: reverse start of a stereo array of odd length swaps channels. True fragment proved for every history (see C52) |
| C16 Quadratic interpolation at unity rate is a pure delay | proved | `C16_array` `C16_raw` `C16_wav` | Up to 8 channels, from any start position, without looping; files serviced after every update, with two updates fitting all buffers but one. Not exact: a sample can be off by 1 |
| C17 Cubic interpolator accuracy | proved | `C17_accuracy` | Sharpness in C95 |
| C18 Lagrange interpolator passes through its points | proved | `C18_nodes` |  |
| C19 Interpolation never reads outside the source | partial | `C19_refuted_start` `C19_refuted_turn` `C19_refuted_wrap` `C19_refuted_linear` `C19_refuted_heard` `C73_forward` `C73_backward` | REFUTED: quadratic interpolation above rate 1 reads up to three frames before the start (also after a loop wraps), ping-pong reads behind the end after turning round, linear interpolation backwards with a left-over fraction reads behind the end. Where it does hold: C73 |
| C20 Crossfade blends, never overshoots | partial | `C20_refuted_zero` `C20_refuted_moved` `C69_gain` `C69_blend` | REFUTED: a duration of 0 frames makes the gain 1 - 0/0, and moving the loop start during a fade makes it about -2^31; both are undefined conversions. True with a duration of at least 1, a fade that fits into the loop and unchanged bounds: C69 |
| C21 Crossfaded repeat loop is periodic and seamless | partial | `C21_refuted_tight` `C70_loop` | REFUTED at start + 2d + 1 = finish: the second fade starts a frame late and reads frame finish, outside the array if the loop ends there. True with start + 2d + 1 < finish: C70 |
| C22 Dual head respects loop_none | partial | `C22_refuted` | REFUTED: with two heads the sample is looped whatever the loop type. What holds instead: C68 |
| C23 File playback never plays the wrong sample | proved | `C23_never_wrong` | every history of preload, reload, fetch and loop-setting operations, every block size and buffer count up to 64, files up to 2^31 bytes |
| C24 The audio interrupt never touches the filesystem | proved | `C24_read` | read() on a file source, every state and request |
| C25 Prefetch keeps up | proved | `C25_wav` `C25_raw` `C25_speed` | every rate on the grid num/2^q, every update size; RAW on an object without left-over header offset (see C32) |
| C26 Reload always terminates | partial | `C26_forward_partial` `C26_refuted` | REFUTED in full: reversing right after the start of a long file. True fragment: forwards and in looped playback reload returns; the exact condition is C54 |
| C27 Reload is safe for looping files of any length | partial | `C27_none_partial` `C27_refuted` | REFUTED in full: a looping 12000-byte file. True fragments: without looping, and with all buffers present (C55) |
| C28 Serial-flash playback at normal speed has no dropouts | partial | `C28_raw_partial` `C28_refuted` | REFUTED in full: a WAV file misses 22 samples per update. True fragment: mono RAW files |
| C29 A reload interrupted by the audio update is harmless | partial | `C29_refuted` `C29_during_partial` | REFUTED: loadBuffer overwrites the data of a buffer that still carries the index and size of the block it held, so a fetch in that block gets samples of the new block. True for every other block at every interruption point: C29_during_partial, C78; true for forward playback, which never goes back to that block: C91 |
| C30 Player lifecycle | proved | `C30_source` `C30_no_null` `C30_stop` `C30_silent` | any number of players; player calls other than stop() are one step each, see DESIGN.md |
| C31 Replay is history-independent | partial | `C31_refuted_fraction` `C31_refuted_point` `C31_refuted_direction` | REFUTED: the fraction of a frame, the last point of linear interpolation and the direction of a ping-pong loop survive a restart. What does hold is C64 and C65 |
| C32 RAW playback starts at the first sample | partial | `C32_refuted` `C32_raw_partial` | REFUTED: after a WAV file the header offset is kept and the RAW file starts late. True fragment: objects that never played a WAV file, at rate 1 |
| C33 update() neither leaks nor double-frees audio blocks | proved | `C33_balanced` `C33_complete` |  |
| C34 Update transmits a full block; mono goes to both outputs | proved | `C34_sends` |  |
| C35 Playback that reached its end stops, under every schedule | partial | `C35_exhausted_partial` `C35_requests_partial` `C35_refuted` | REFUTED in full: array players are never attached to the event responder, so their close requests are lost and isPlaying() stays true (C63). True fragments: the requests themselves, and file players in yield mode (C62) and in polled mode (C96, with the discipline whose need C97 shows) |
| C36 Response masking nests | proved | `C36_nested` `C36_mask` | without setForceResponse; other code may switch on other yield checks meanwhile |
| C37 Polled events form a FIFO without duplicates | proved | `C37_fifo` `C37_calm` | players never attached for yield() before (see C59) |
| C38 Detaching a pending polled player leaves the others intact | partial | `C38_first_partial` `C38_refuted` | REFUTED in full: the second of two pending players is detached and its event is run all the same (removeFromList tests _prev instead of _aprev). True fragment: the first in the queue |
| C39 Stopping one polled player does not affect another's events | partial | `C39_idle_partial` `C39_refuted` `C39_own_refuted` | REFUTED in full: stop and retrigger of one player loses the event of another for ever, and a stopped player's own event stays pending. True fragment: players stopped or replayed while nothing of theirs is pending |
| C40 No memory leak across play/close cycles | proved | `C40_close` `C40_bounded` | memory counted as heap blocks |
| C41 lengthMillis is accurate | partial | `C41_constant` `C41_array` `C41_read` `C41_rawfile_partial` `C41_refuted_wav` | REFUTED for WAV files: the headers are counted as audio (a file of 0.9 ms has length 1 ms). True for arrays and RAW files. The exact law for all files is C66 |
| C42 positionMillis is monotone and bounded | partial | `C42_zero_partial` `C42_refuted_end` `C42_refuted_reverse` `C42_refuted_byte` | REFUTED: when playback ends the position lies beyond the file (or before it, which is an undefined conversion), and a one-byte file divides 0 by 0. True with the position inside the file: C67 |
| C43 Changing the rate does not move the play head | proved | `C43_rate` `C43_two_heads` | positions that fit 32 bits; the exact new state is given |
| C44 loop(n) loops n frames from the current position | partial | `C44_refuted` `C44_loop_here_partial` `C44_header` | REFUTED for WAV files: the loop is shifted by header/channels frames (C44_header; concrete file: C44_refuted). True for arrays forwards at rate 1.0 |
| C45 playWav(array, size) plays the array | partial | `C45_silent` `C45_refuted` | REFUTED: playWav(array,length) never plays anything (C45_silent, for every array) |
| C46 A file shorter than its header claims plays silence past its end | partial | `C46_blocks_partial` `C46_refuted` | REFUTED in full: the rest of the last block is left-over buffer content. True fragment: whole blocks past the end, on drivers that seek there |
| C47 Malformed WAV channel counts are refused | partial | `C47_refuted_zero` `C47_refuted_huge` `C47_refuted_nine` | REFUTED: zero, >= 0x8000 and (with interpolation) > 8 channels are undefined behaviour, the first two for every such file |
| C48 Length unit is the same in both directions | partial | `C48_mono_partial` `C48_refuted` | REFUTED in full for stereo (C48_refuted); true fragment proved for mono |
| C49 Reverse playback of arrays, where it is right | proved | `C49_mono` `C49_from` | arrays |
| C50 Loops at any exact rate | proved | `C50_forward` `C50_backward` | arrays; rates num/2^q |
| C51 Ping-pong loop of a mono array started from the loop | proved | `C51_pingpong_mono` `C51_inside` | arrays |
| C52 Correct use of array playback is safe | proved | `C52_safe` `C52_frames` | single head, no interpolation |
| C53 Playable loops never end and never stall | proved | `C53_endless` | single head, no interpolation |
| C54 When a reload returns | proved | `C54_reload_returns` |  |
| C55 Reload with all buffers present is safe | proved | `C55_full_safe` |  |
| C56 Files at rate 1.0 play every frame | proved | `C56_wav_unity` `C56_raw_unity` | RAW on an object without left-over header offset (see C32) |
| C57 Files have exact pitch and length | proved | `C57_wav_pitch` `C57_raw_pitch` `C57_wav_count` | RAW on an object without left-over header offset (see C32) |
| C58 Yield-mode events form a FIFO that stop, play and detach respect | proved | `C58_yield` | EventResponder as modelled in ResponderModel.v |
| C59 Switching a stopped player from yield to polled service can crash | proved | `C59_switch` |  |
| C60 Destroying a player leaks whatever it had open | proved | `C60_leaks` |  |
| C61 Restarting a closed reader is harmless | partial | `C61_refuted` | REFUTED for LittleFS and SerialFlash; the SD reader delivers silence (Example C61_sd). play() is not exposed by the player classes |
| C62 File players stop within N yields of running out | proved | `C62_stops` |  |
| C63 Array players never stop by themselves | proved | `C63_never` | yield mode |
| C64 What playback leaves behind | proved | `C64_raw` `C64_wav` `C64_file` |  |
| C65 Replay at whole-number rates | proved | `C65_array` `C65_file` |  |
| C66 lengthMillis counts the whole file as mono | proved | `C66_file` |  |
| C67 positionMillis inside the file | proved | `C67_bounded` `C67_monotone` |  |
| C68 Two heads never end | proved | `C68_endless` |  |
| C69 Gains of a fade that fits into the loop | proved | `C69_gain` `C69_ready` `C69_blend` |  |
| C70 Crossfaded repeat loop | proved | `C70_loop` |  |
| C71 Cubic interpolator accuracy, bound 1.125 | proved | `C71_accuracy` |  |
| C72 Quadratic interpolation of arrays at rate 1 | proved | `C72_delay` |  |
| C73 When interpolated playback of an array stays inside | proved | `C73_forward` `C73_backward` |  |
| C74 Linear interpolation up to rate 1 | proved | `C74_linear` |  |
| C75 Quadratic interpolation up to rate 1 | proved | `C75_cubic` |  |
| C76 Linear interpolation reproduces straight lines | partial | `C76_refuted` `C74_linear` | REFUTED: at rate 2.5 the ramp 1,2,3,... comes out as 2,3,7,8,12,13, because the two mixed points are the frames around two consecutive output positions and not two neighbouring frames. True for rates up to 1: C74 |
| C77 Bounded drift over rate changes and reads | proved | `C77_drift` `C77_heard` |  |
| C78 Interrupted reloads | proved | `C78_during` `C78_between` `C78_sequential` `C78_histories` |  |
| C79 A file without misses plays like an array | proved | `C79_play` `C79_session` |  |
| C80 What a read needs buffered | proved | `C80_buffered` |  |
| C81 Dropouts never move the timeline | proved | `C81_timeline` |  |
| C82 Interpolated forward playback of files is that of arrays | proved | `C82_raw` `C82_wav` | C82_start_refuted: the start condition is needed |
| C83 Linear interpolation of files up to rate 1 | proved | `C83_raw` `C83_wav` |  |
| C84 Quadratic interpolation of files up to rate 1 | proved | `C84_raw` `C84_wav` |  |
| C85 From the file to the outputs | proved | `C85_wav` `C85_raw` |  |
| C86 Repeat loops played from files | proved | `C86_raw` `C86_wav` `C86_unity` |  |
| C87 A repeat loop may be started anywhere inside it | partial | `C87_refuted` `C86_raw` `C86_wav` | REFUTED: started in the last block of a loop whose first blocks are not buffered, playback jumps back before these have been read: 156 samples are silence. True if the buffers begin before the loop or end inside it: C86 |
| C88 Ping-pong loops played from files | partial | `C88_refuted` `C89_raw` `C89_wav` | REFUTED: if the loop ends exactly at the end of a block and has more blocks than there are buffers, the block of the end position is never read, so the reload never turns round, and everything but the last seven blocks is silence from the first pass back on. True if the frame where the direction changes reaches into the block of the loop end: C89 |
| C89 Which ping-pong loops play from files without misses | proved | `C89_raw` `C89_wav` `C89_unity` |  |
| C90 A ping-pong loop may be started anywhere | partial | `C90_refuted_late` `C90_refuted_below` `C89_raw` `C89_wav` | REFUTED twice: started in the last blocks of the loop, the buffers reach beyond its end and the block before the start is not loaded on the way back; with start mode "sample" the way back goes below the loop start, where the reload does not follow. True if the start is inside the loop with its buffers, and frame 0 and the loop start share a block: C89 |
| C91 Interrupted reloads never corrupt forward playback | proved | `C91_raw` `C91_wav` |  |
| C92 Interrupted reloads never corrupt turned playback | partial | `C92_refuted` `C91_raw` `C91_wav` | REFUTED: after turning just behind a block boundary the block just left counts as unused; the reload overwrites it while the play position comes back into it, and samples of another block are played without a counted miss. True for forward playback: C91 |
| C93 Interrupted reloads keep up as uninterrupted ones do | partial | `C93_refuted` `C91_raw` `C91_wav` | REFUTED: an update that interrupts a reload between its last look at the buffers and the reset of their marks marks a buffer as read; the reset forgets it, so if this happens at every update no buffer is ever replaced: the fifth update of 64 frames is silent, although reloads between updates prevent all misses. What remains true is C91: the missed samples are silent and counted, and C94: reloads between updates make up for it |
| C94 Late reloads are made up for | proved | `C94_raw` `C94_wav` |  |
| C95 The accuracy bound is nearly sharp | proved | `C95_sharp` |  |
| C96 File players stop within N polls of running out | proved | `C96_polled` |  |
| C97 Polled file players stop whatever is called on others | partial | `C97_refuted` `C96_polled` | REFUTED: playing player 0 anew while its reload is pending unlinks the pending close of player 1, which then plays (silence) for ever under any further updates, polls and yields. True with the discipline of C96 |
| C98 Varying the rate is like varying the speed of a tape | proved | `C98_raw` `C98_wav` `C98_array` `C98_float` |  |
| C99 A file can be turned round at any speed without gaps | partial | `C99_refuted` `C99_refuted_flash` `C98_raw` | REFUTED: played forwards at 1.0 across a block border of an SD file and then back at -2.0, 191 samples are missed and a whole update is silent; on serial flash also at -1.0, with most of every update lost. Rates that are not negative: C98 |
| C100 Reverse playback of files like a tape | proved | `C100_raw` `C100_wav` `C100_array` `C100_float` |  |
| C101 Files of any length play backwards without gaps | partial | `C101_refuted` `C101_refuted_flash` `C101_refuted_frame` `C100_raw` | REFUTED: opening a file loads blocks until one is less than half full; played backwards the first block loaded is the last of the file, so if it is less than half full only one buffer is ever allocated: an SD file then loses 204 samples at every block border, a serial flash file everything but its last block. With three channels the last sample of the first frame may lie in a block that is not loaded. True if the first block is at least half full and holds the first frame: C100 |
| C102 Setters take effect at one moment | proved | `C102_setters_atomic` `C102_same_call` |  |
| C103 setPlaybackRate takes effect at one moment | partial | `C103_refuted_bounds` `C103_refuted_close` `C103_forward_partial` `C103_reverse_partial` `C103_same_call` | REFUTED: the rate is stored before the position is corrected. Turned forwards after playing in reverse to the start, an update in between reads in front of the array; turned to reverse right after the start, an update in between plays one frame and requests the close of the file. True fragments proved: with one head and no loop, a rate that is not negative from a position inside the audio, and a negative rate as long as the interrupting updates cannot reach the start |
| C104 loop(n) takes effect at one moment | partial | `C104_refuted` `C104_first_loop_partial` `C104_same_call` | REFUTED: inside a loop, an update between the stores loops from the new start to the old end. True fragment proved: outside a loop (one head, start at the sample) the interrupting updates sound as if there were no call, and the loop laid is that of the position at the moment the call read it |
| C105 Starting and stopping are silent inside | proved | `C105_silent_start` `C105_same_call` |  |
| C106 From the file to the outputs at changing rates | proved | `C106_wav` `C106_raw` |  |
| C107 From the file to the outputs in reverse at changing rates | proved | `C107_wav` `C107_raw` |  |
| C108 Array players do not depend on the other players | proved | `C108_alone` |  |
| C109 From an array to the outputs at changing rates | proved | `C109_raw` `C109_wav` `C109_back` |  |
| C110 Looped arrays to the outputs | proved | `C110_forward` `C110_backward` |  |
| C111 Interpolated arrays to the outputs | proved | `C111_linear` `C111_cubic` |  |
| C112 Looped files to the outputs | proved | `C112_raw` `C112_wav` `C112_pong_raw` `C112_pong_wav` |  |
| C113 Interpolated files to the outputs | proved | `C113_linear_raw` `C113_linear_wav` `C113_cubic_raw` `C113_cubic_wav` |  |
| C114 The array examples stay inside their sample | partial | `C114_refuted` `C114_forward_partial` `C114_reverse_partial` | REFUTED: turning the knob below the middle while the sample plays reads before it; proved safe for knobs that stay in either half |
| C115 The array examples start their sample again | partial | `C115_once` `C115_refuted` | REFUTED: no run of the sketches starts the sample twice, since array players never stop by themselves |
| C116 The file examples never hang | partial | `C116_refuted` `C116_refuted_down` `C116_raw_partial` `C116_wav_partial` | REFUTED: yield() hangs after turning the knob below the middle, or with the knob below it all the time; proved safe for knobs that stay in the upper half |
| C117 File players used forwards never hang and never misbehave | proved | `C117_defined` |  |
| C118 The piano example never hangs or misbehaves | proved | `C118_defined` `C118_prelude` |  |
| C119 The piano example plays its score in order and in time | proved | `C119_in_order` `C119_unique` |  |
| C120 The piano example understands all commands of its score format | partial | `C120_refuted_channel` `C120_refuted_restart` | REFUTED: generators 8-15 index voices[] out of bounds; 0xE0 is handled as a delay and reads past the end of the score. The other commands: C118, C119 |
| C121 The piano example stops silent voices | proved | `C121_silent` |  |
| C122 sd_play_all lists the right files | proved | `C122_listed` |  |
| C123 sd_play_all plays all files in turn | proved | `C123_in_turn` |  |
| C124 sd_play_all works on any card | partial | `C124_refuted` `C124_none` `C124_too_many` | REFUTED: without WAV files _filenames[0] of an empty array is read, with 65536 or more the array is overrun in setup(); proved for 1 to 65535 files: C123 |
| C125 Players of all kinds used forwards never hang and never misbehave | proved | `C125_defined` |  |
| C126 Players of all kinds used forwards in polled mode never hang and never misbehave | proved | `C126_defined` |  |
| C127 The file access example never misbehaves | partial | `C127_refuted` | REFUTED: a file whose last block is less than half full gets one buffer when it is opened for reverse playback, and the looped reload accesses the seventh; a sound mono WAV file of 2031 frames is the witness. What holds in all runs: C128 to C130 |
| C128 The file access example never reloads while it copies | proved | `C128_untouched` |  |
| C129 The file access example copies faithfully | proved | `C129_faithful` `C129_finishes` | writes are taken to succeed |
| C130 The file access example plays its rates in turn | proved | `C130_in_turn` `C130_stops` |  |
| C131 Cubic interpolator accuracy with fused arithmetic | proved | `C131_cubic` |  |
| C132 The interpolator returns a sample at its own position | partial | `C132_refuted` `C132_within_partial` | REFUTED for every choice of fused operations: 13484 becomes 13483. True fragment: within 1 for all samples and choices |
| C133 Linear interpolation and crossfading with fused arithmetic | proved | `C133_mix` |  |
| C134 Until a reload is serviced, a file plays what opening it buffered | proved | `C134_held` `C134_small` |  |
| C135 Files that fit into the buffers play without any reload | proved | `C135_raw` `C135_wav` `C135_bound` | C135_bound: without the condition on the size it is false |
| C136 The reading tests pass for every length the buffers hold | proved | `C136_double` `C136_half_raw` `C136_half_wav` `C136_regular` |  |
| C137 The reading tests compare every sample they read | partial | `C137_refuted` `C137_compared_partial` | REFUTED: the end of the compared ranges is samplesRead - 1, so the last sample of each block may be anything. True fragment: all others are compared |
| C138 Small files loop without any reload | proved | `C138_raw` `C138_wav` |  |
| C139 The loop tests pass for every length the buffers hold | partial | `C139_refuted` `C139_raw` `C139_finish` `C139_wav_partial` | REFUTED for the WAV test of the whole file: it takes the samples read for bytes, compares half of each block and loses its place unless the length divides 128. The others pass |
| C140 Until a reload is serviced, a file opened for reverse playback plays what opening it buffered | proved | `C140_held` |  |
| C141 Files that fit into the buffers play backwards without any reload | partial | `C141_refuted` `C141_small_partial` | REFUTED: preloading backwards stops after a block of which less than half was read, and the last block of the file is the first it loads. True fragment: files whose last block is at least half full |
| C142 Small files play backwards without any reload if their last block is half full | proved | `C142_raw` `C142_wav` |  |
| C143 The backward reading test passes for every length the buffers hold | partial | `C143_refuted` `C143_backward_partial` | REFUTED: with 2048 samples the last block of the file holds only 22 of them, opening buffers no other, and the test fails. True fragment: all lengths up to 2026, and those that leave the last block at least half full |
| C144 The array reading tests pass for arrays of every length | partial | `C144_refuted` `C144_mono` `C144_stereo_partial` | REFUTED for the stereo test and arrays with half a frame at the end: it expects a frame for every two bytes. It passes exactly for the lengths 0 and 1 modulo 4; the mono test passes for all |

## 5. Trusted base

* The Coq kernel.
* The axioms `Print Assumptions` lists for the theorems, all of the standard library:
  * axioms `ClassicalDedekindReals.sig_forall_dec`, `ClassicalDedekindReals.sig_not_dec`, `Classical_Prop.classic`, `FunctionalExtensionality.functional_extensionality_dep`: C127_refuted, C128_untouched, C129_faithful, C129_finishes, C130_in_turn, C130_stops, C100_raw, C100_wav, C100_array, C100_float, C101_refuted, C101_refuted_flash, C101_refuted_frame, C142_raw, C142_wav, C143_backward_partial, C143_refuted, C24_read, C26_refuted, C27_refuted, C46_refuted, C102_setters_atomic, C103_refuted_bounds, C103_refuted_close, C103_forward_partial, C103_reverse_partial, C104_same_call, C104_refuted, C104_first_loop_partial, C105_silent_start, C06_split, C06_unsplit, C131_cubic, C132_refuted, C132_within_partial, C133_mix, C08_step_partial, C77_drift, C77_heard, C08_refuted, C69_gain, C69_ready, C69_blend, C20_refuted_zero, C20_refuted_moved, C70_loop, C21_refuted_tight, C68_endless, C22_refuted, C25_wav, C25_raw, C56_wav_unity, C56_raw_unity, C57_wav_pitch, C57_raw_pitch, C57_wav_count, C28_raw_partial, C28_refuted, C10_refuted_file, C125_defined, C126_defined, C134_held, C134_small, C135_raw, C135_wav, C135_bound, C140_held, C141_small_partial, C141_refuted, C71_accuracy, C17_accuracy, C95_sharp, C18_nodes, C72_delay, C16_array, C73_forward, C73_backward, C19_refuted_turn, C19_refuted_wrap, C19_refuted_linear, C19_refuted_heard, C19_refuted_start, C74_linear, C75_cubic, C76_refuted, C94_raw, C94_wav, C11_repeat, C12_triangle_partial, C12_refuted_leaves, C12_refuted_skips, C51_pingpong_mono, C50_forward, C50_backward, C13_endless_partial, C13_refuted, C13_empty_loop, C14_safe_partial, C14_refuted, C14_refuted_parked, C15_frames_partial, C15_refuted, C43_rate, C43_two_heads, C44_loop_here_partial, C44_header, C52_safe, C52_frames, C53_endless, C86_raw, C86_wav, C87_refuted, C88_refuted, C44_refuted, C117_defined, C41_constant, C41_read, C41_refuted_wav, C42_zero_partial, C67_bounded, C67_monotone, C42_refuted_end, C42_refuted_reverse, C42_refuted_byte, C79_play, C79_session, C80_buffered, C81_timeline, C118_defined, C119_in_order, C120_refuted_channel, C120_refuted_restart, C121_silent, C05_blocks, C05_unity, C05_concat, C07_exact_pitch, C09_count, C10_mono_partial, C10_from_partial, C10_actual, C10_refuted, C48_mono_partial, C48_refuted, C49_mono, C49_from, C123_in_turn, C124_refuted, C124_none, C124_too_many, C30_source, C30_no_null, C30_stop, C30_silent, C33_balanced, C33_complete, C34_sends, C35_exhausted_partial, C35_requests_partial, C35_refuted, C62_stops, C63_never, C40_close, C40_bounded, C60_leaks, C61_refuted, C96_polled, C97_refuted, C89_raw, C89_wav, C90_refuted_late, C90_refuted_below, C29_refuted, C91_raw, C91_wav, C92_refuted, C93_refuted, C106_wav, C106_raw, C107_wav, C107_raw, C31_refuted_fraction, C31_refuted_point, C31_refuted_direction, C64_raw, C64_wav, C64_file, C65_array, C65_file, C32_refuted, C32_raw_partial, C114_refuted, C114_forward_partial, C114_reverse_partial, C115_once, C115_refuted, C116_refuted, C116_refuted_down, C116_raw_partial, C116_wav_partial, C108_alone, C109_raw, C109_wav, C109_back, C110_forward, C110_backward, C111_linear, C111_cubic, C112_raw, C112_wav, C112_pong_raw, C112_pong_wav, C113_linear_raw, C113_linear_wav, C113_cubic_raw, C113_cubic_wav, C85_wav, C85_raw, C98_raw, C98_wav, C98_array, C98_float, C99_refuted, C99_refuted_flash, C82_raw, C82_wav, C82_start_refuted, C16_raw, C16_wav, C83_raw, C83_wav, C84_raw, C84_wav, C136_double, C136_half_raw, C136_half_wav, C136_regular, C144_mono, C144_stereo_partial, C144_refuted, C138_raw, C138_wav, C139_raw, C139_finish, C139_wav_partial, C139_refuted, C03_refuted_wrap, C03_refuted_ub, C04_plays, C45_silent, C45_refuted, C47_refuted_huge, C47_refuted_nine
  * no axioms at all (closed under the global context): C23_never_wrong, C54_reload_returns, C26_forward_partial, C55_full_safe, C27_none_partial, C46_blocks_partial, C102_same_call, C103_same_call, C105_same_call, C11_periodic, C51_inside, C86_unity, C41_array, C41_rawfile_partial, C66_file, C118_prelude, C119_unique, C122_listed, C89_unity, C29_during_partial, C78_during, C78_between, C78_sequential, C78_histories, C36_nested, C36_mask, C37_fifo, C37_calm, C38_refuted, C38_first_partial, C39_refuted, C39_own_refuted, C39_idle_partial, C58_yield, C59_switch, C137_compared_partial, C137_refuted, C01_roundtrip, C01_list, C01_data, C02_accepts_partial, C02_ub, C02_refuted, C03_wav_file_partial, C03_result_partial, C03_missing_file, C04_accepts, C47_refuted_zero
  * axioms `ClassicalDedekindReals.sig_forall_dec`, `FunctionalExtensionality.functional_extensionality_dep`: C25_speed

  They come from the real numbers (`Reals`, used by Flocq to state what a float means).
* The transcription of the C++ text into the model files, in the parts and with the simplifications of section 2.
  It was checked by reading, and by `seeded/LOG.jsonl`: wrong edits of the model and the theorems that then fail.
