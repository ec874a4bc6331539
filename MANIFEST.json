{
 "claims": [
  {
   "property": "C01",
   "status": "proved",
   "theorems": [
    "C01_roundtrip",
    "C01_list",
    "C01_data"
   ],
   "note": "all field values"
  },
  {
   "property": "C02",
   "status": "partial",
   "theorems": [
    "C02_accepts_partial",
    "C02_ub",
    "C02_refuted"
   ],
   "note": "acceptance is proved to be exactly the documented format; \"without undefined behaviour\" is REFUTED, and the exact set of undefined inputs is proved (C02_ub)"
  },
  {
   "property": "C03",
   "status": "partial",
   "theorems": [
    "C03_wav_file_partial",
    "C03_result_partial",
    "C03_missing_file",
    "C03_refuted_wrap",
    "C03_refuted_ub"
   ],
   "note": "REFUTED in full (wrapping LIST size, RIFF-but-not-WAVE). Proved for every file outside these two sets that does not declare zero channels"
  },
  {
   "property": "C04",
   "status": "proved",
   "theorems": [
    "C04_accepts",
    "C04_plays"
   ],
   "note": "headers inside the array and outside the undefined set of C02, at least one channel"
  },
  {
   "property": "C05",
   "status": "proved",
   "theorems": [
    "C05_unity",
    "C05_blocks",
    "C05_concat"
   ],
   "note": "arrays, any channel count, any block sizes"
  },
  {
   "property": "C06",
   "status": "proved",
   "theorems": [
    "C06_split",
    "C06_unsplit"
   ],
   "note": "every reader state, all block sizes; state equality is exact"
  },
  {
   "property": "C07",
   "status": "proved",
   "theorems": [
    "C07_exact_pitch"
   ],
   "note": "arrays; rates given as float >= 2^-29 with (rate+1)*channels <= 2^30 (no overflow of one step)"
  },
  {
   "property": "C08",
   "status": "partial",
   "theorems": [
    "C08_step_partial",
    "C77_drift",
    "C77_heard",
    "C08_refuted"
   ],
   "note": "REFUTED for rates of 2^31 and more, whose conversion to int is undefined. Every step that is defined moves by the rate up to 2^-53 (|rate|+1) and leaves less than one frame pending (C08_step_partial, all sources, loop types and interpolations). Over any sequence of rates and reads with one head and no loop: C77"
  },
  {
   "property": "C09",
   "status": "proved",
   "theorems": [
    "C09_count"
   ],
   "note": "arrays; exactly accumulated rates num/2^q"
  },
  {
   "property": "C10",
   "status": "partial",
   "theorems": [
    "C10_mono_partial",
    "C10_from_partial",
    "C10_actual",
    "C10_refuted",
    "C10_refuted_file",
    "C100_raw",
    "C100_wav"
   ],
   "note": "REFUTED in full: multi-channel arrays play only the first 1/n (C10_refuted; C10_actual says what is played instead), and a file whose last block is less than half full plays almost nothing in reverse (C10_refuted_file). True fragments proved: mono arrays, and any channel count with an explicit start frame; files whose first block is at least half full (C100)"
  },
  {
   "property": "C100",
   "status": "proved",
   "theorems": [
    "C100_raw",
    "C100_wav",
    "C100_array",
    "C100_float"
   ],
   "note": ""
  },
  {
   "property": "C101",
   "status": "partial",
   "theorems": [
    "C101_refuted",
    "C101_refuted_flash",
    "C101_refuted_frame",
    "C100_raw"
   ],
   "note": "REFUTED: opening a file loads blocks until one is less than half full; played backwards the first block loaded is the last of the file, so if it is less than half full only one buffer is ever allocated: an SD file then loses 204 samples at every block border, a serial flash file everything but its last block. With three channels the last sample of the first frame may lie in a block that is not loaded. True if the first block is at least half full and holds the first frame: C100"
  },
  {
   "property": "C102",
   "status": "proved",
   "theorems": [
    "C102_setters_atomic",
    "C102_same_call"
   ],
   "note": ""
  },
  {
   "property": "C103",
   "status": "partial",
   "theorems": [
    "C103_refuted_bounds",
    "C103_refuted_close",
    "C103_forward_partial",
    "C103_reverse_partial",
    "C103_same_call"
   ],
   "note": "REFUTED: the rate is stored before the position is corrected. Turned forwards after playing in reverse to the start, an update in between reads in front of the array; turned to reverse right after the start, an update in between plays one frame and requests the close of the file. True fragments proved: with one head and no loop, a rate that is not negative from a position inside the audio, and a negative rate as long as the interrupting updates cannot reach the start"
  },
  {
   "property": "C104",
   "status": "partial",
   "theorems": [
    "C104_refuted",
    "C104_first_loop_partial",
    "C104_same_call"
   ],
   "note": "REFUTED: inside a loop, an update between the stores loops from the new start to the old end. True fragment proved: outside a loop (one head, start at the sample) the interrupting updates sound as if there were no call, and the loop laid is that of the position at the moment the call read it"
  },
  {
   "property": "C105",
   "status": "proved",
   "theorems": [
    "C105_silent_start",
    "C105_same_call"
   ],
   "note": ""
  },
  {
   "property": "C106",
   "status": "proved",
   "theorems": [
    "C106_wav",
    "C106_raw"
   ],
   "note": ""
  },
  {
   "property": "C107",
   "status": "proved",
   "theorems": [
    "C107_wav",
    "C107_raw"
   ],
   "note": ""
  },
  {
   "property": "C108",
   "status": "proved",
   "theorems": [
    "C108_alone"
   ],
   "note": ""
  },
  {
   "property": "C109",
   "status": "proved",
   "theorems": [
    "C109_raw",
    "C109_wav",
    "C109_back"
   ],
   "note": ""
  },
  {
   "property": "C11",
   "status": "proved",
   "theorems": [
    "C11_repeat",
    "C11_periodic"
   ],
   "note": "arrays, any channel count, every start mode"
  },
  {
   "property": "C110",
   "status": "proved",
   "theorems": [
    "C110_forward",
    "C110_backward"
   ],
   "note": ""
  },
  {
   "property": "C111",
   "status": "proved",
   "theorems": [
    "C111_linear",
    "C111_cubic"
   ],
   "note": ""
  },
  {
   "property": "C112",
   "status": "proved",
   "theorems": [
    "C112_raw",
    "C112_wav",
    "C112_pong_raw",
    "C112_pong_wav"
   ],
   "note": ""
  },
  {
   "property": "C113",
   "status": "proved",
   "theorems": [
    "C113_linear_raw",
    "C113_linear_wav",
    "C113_cubic_raw",
    "C113_cubic_wav"
   ],
   "note": ""
  },
  {
   "property": "C114",
   "status": "partial",
   "theorems": [
    "C114_refuted",
    "C114_forward_partial",
    "C114_reverse_partial"
   ],
   "note": "REFUTED: turning the knob below the middle while the sample plays reads before it; proved safe for knobs that stay in either half"
  },
  {
   "property": "C115",
   "status": "partial",
   "theorems": [
    "C115_once",
    "C115_refuted"
   ],
   "note": "REFUTED: no run of the sketches starts the sample twice, since array players never stop by themselves"
  },
  {
   "property": "C116",
   "status": "partial",
   "theorems": [
    "C116_refuted",
    "C116_refuted_down",
    "C116_raw_partial",
    "C116_wav_partial"
   ],
   "note": "REFUTED: yield() hangs after turning the knob below the middle, or with the knob below it all the time; proved safe for knobs that stay in the upper half"
  },
  {
   "property": "C117",
   "status": "proved",
   "theorems": [
    "C117_defined"
   ],
   "note": ""
  },
  {
   "property": "C118",
   "status": "proved",
   "theorems": [
    "C118_defined",
    "C118_prelude"
   ],
   "note": ""
  },
  {
   "property": "C119",
   "status": "proved",
   "theorems": [
    "C119_in_order",
    "C119_unique"
   ],
   "note": ""
  },
  {
   "property": "C12",
   "status": "partial",
   "theorems": [
    "C12_triangle_partial",
    "C12_refuted_leaves",
    "C12_refuted_skips"
   ],
   "note": "REFUTED in full: with the default start mode the way back runs to frame 0, and with 3+ channels the turn skips frames. The exact frame sequence is proved for all cases (C12_triangle_partial); see C51 for the true fragment"
  },
  {
   "property": "C120",
   "status": "partial",
   "theorems": [
    "C120_refuted_channel",
    "C120_refuted_restart"
   ],
   "note": "REFUTED: generators 8-15 index voices[] out of bounds; 0xE0 is handled as a delay and reads past the end of the score. The other commands: C118, C119"
  },
  {
   "property": "C121",
   "status": "proved",
   "theorems": [
    "C121_silent"
   ],
   "note": ""
  },
  {
   "property": "C122",
   "status": "proved",
   "theorems": [
    "C122_listed"
   ],
   "note": ""
  },
  {
   "property": "C123",
   "status": "proved",
   "theorems": [
    "C123_in_turn"
   ],
   "note": ""
  },
  {
   "property": "C124",
   "status": "partial",
   "theorems": [
    "C124_refuted",
    "C124_none",
    "C124_too_many"
   ],
   "note": "REFUTED: without WAV files _filenames[0] of an empty array is read, with 65536 or more the array is overrun in setup(); proved for 1 to 65535 files: C123"
  },
  {
   "property": "C125",
   "status": "proved",
   "theorems": [
    "C125_defined"
   ],
   "note": ""
  },
  {
   "property": "C126",
   "status": "proved",
   "theorems": [
    "C126_defined"
   ],
   "note": ""
  },
  {
   "property": "C127",
   "status": "partial",
   "theorems": [
    "C127_refuted"
   ],
   "note": "REFUTED: a file whose last block is less than half full gets one buffer when it is opened for reverse playback, and the looped reload accesses the seventh; a sound mono WAV file of 2031 frames is the witness. What holds in all runs: C128 to C130"
  },
  {
   "property": "C128",
   "status": "proved",
   "theorems": [
    "C128_untouched"
   ],
   "note": ""
  },
  {
   "property": "C129",
   "status": "proved",
   "theorems": [
    "C129_faithful",
    "C129_finishes"
   ],
   "note": "writes are taken to succeed"
  },
  {
   "property": "C13",
   "status": "partial",
   "theorems": [
    "C13_endless_partial",
    "C13_refuted",
    "C13_empty_loop"
   ],
   "note": "REFUTED in full: a one-frame stereo reverse repeat loop hangs. True fragment proved for every history (see C53)"
  },
  {
   "property": "C130",
   "status": "proved",
   "theorems": [
    "C130_in_turn",
    "C130_stops"
   ],
   "note": ""
  },
  {
   "property": "C131",
   "status": "proved",
   "theorems": [
    "C131_cubic"
   ],
   "note": ""
  },
  {
   "property": "C132",
   "status": "partial",
   "theorems": [
    "C132_refuted",
    "C132_within_partial"
   ],
   "note": "REFUTED for every choice of fused operations: 13484 becomes 13483. True fragment: within 1 for all samples and choices"
  },
  {
   "property": "C133",
   "status": "proved",
   "theorems": [
    "C133_mix"
   ],
   "note": ""
  },
  {
   "property": "C134",
   "status": "proved",
   "theorems": [
    "C134_held",
    "C134_small"
   ],
   "note": ""
  },
  {
   "property": "C135",
   "status": "proved",
   "theorems": [
    "C135_raw",
    "C135_wav",
    "C135_bound"
   ],
   "note": "C135_bound: without the condition on the size it is false"
  },
  {
   "property": "C136",
   "status": "proved",
   "theorems": [
    "C136_double",
    "C136_half_raw",
    "C136_half_wav",
    "C136_regular"
   ],
   "note": ""
  },
  {
   "property": "C137",
   "status": "partial",
   "theorems": [
    "C137_refuted",
    "C137_compared_partial"
   ],
   "note": "REFUTED: the end of the compared ranges is samplesRead - 1, so the last sample of each block may be anything. True fragment: all others are compared"
  },
  {
   "property": "C138",
   "status": "proved",
   "theorems": [
    "C138_raw",
    "C138_wav"
   ],
   "note": ""
  },
  {
   "property": "C139",
   "status": "partial",
   "theorems": [
    "C139_refuted",
    "C139_raw",
    "C139_finish",
    "C139_wav_partial"
   ],
   "note": "REFUTED for the WAV test of the whole file: it takes the samples read for bytes, compares half of each block and loses its place unless the length divides 128. The others pass"
  },
  {
   "property": "C14",
   "status": "partial",
   "theorems": [
    "C14_safe_partial",
    "C14_refuted",
    "C14_refuted_parked"
   ],
   "note": "REFUTED in full: reversal exactly at the end reads outside the array. True fragment proved for every history (see C52)"
  },
  {
   "property": "C140",
   "status": "proved",
   "theorems": [
    "C140_held"
   ],
   "note": ""
  },
  {
   "property": "C141",
   "status": "partial",
   "theorems": [
    "C141_refuted",
    "C141_small_partial"
   ],
   "note": "REFUTED: preloading backwards stops after a block of which less than half was read, and the last block of the file is the first it loads. True fragment: files whose last block is at least half full"
  },
  {
   "property": "C142",
   "status": "proved",
   "theorems": [
    "C142_raw",
    "C142_wav"
   ],
   "note": ""
  },
  {
   "property": "C143",
   "status": "partial",
   "theorems": [
    "C143_refuted",
    "C143_backward_partial"
   ],
   "note": "REFUTED: with 2048 samples the last block of the file holds only 22 of them, opening buffers no other, and the test fails. True fragment: all lengths up to 2026, and those that leave the last block at least half full"
  },
  {
   "property": "C144",
   "status": "partial",
   "theorems": [
    "C144_refuted",
    "C144_mono",
    "C144_stereo_partial"
   ],
   "note": "REFUTED for the stereo test and arrays with half a frame at the end: it expects a frame for every two bytes. It passes exactly for the lengths 0 and 1 modulo 4; the mono test passes for all"
  },
  {
   "property": "C15",
   "status": "partial",
   "theorems": [
    "C15_frames_partial",
    "C15_refuted"
   ],
   "note": "REFUTED in full: reverse start of a stereo array of odd length swaps channels. True fragment proved for every history (see C52)"
  },
  {
   "property": "C16",
   "status": "proved",
   "theorems": [
    "C16_array",
    "C16_raw",
    "C16_wav"
   ],
   "note": "Up to 8 channels, from any start position, without looping; files serviced after every update, with two updates fitting all buffers but one. Not exact: a sample can be off by 1"
  },
  {
   "property": "C17",
   "status": "proved",
   "theorems": [
    "C17_accuracy"
   ],
   "note": "Sharpness in C95"
  },
  {
   "property": "C18",
   "status": "proved",
   "theorems": [
    "C18_nodes"
   ],
   "note": ""
  },
  {
   "property": "C19",
   "status": "partial",
   "theorems": [
    "C19_refuted_start",
    "C19_refuted_turn",
    "C19_refuted_wrap",
    "C19_refuted_linear",
    "C19_refuted_heard",
    "C73_forward",
    "C73_backward"
   ],
   "note": "REFUTED: quadratic interpolation above rate 1 reads up to three frames before the start (also after a loop wraps), ping-pong reads behind the end after turning round, linear interpolation backwards with a left-over fraction reads behind the end. Where it does hold: C73"
  },
  {
   "property": "C20",
   "status": "partial",
   "theorems": [
    "C20_refuted_zero",
    "C20_refuted_moved",
    "C69_gain",
    "C69_blend"
   ],
   "note": "REFUTED: a duration of 0 frames makes the gain 1 - 0/0, and moving the loop start during a fade makes it about -2^31; both are undefined conversions. True with a duration of at least 1, a fade that fits into the loop and unchanged bounds: C69"
  },
  {
   "property": "C21",
   "status": "partial",
   "theorems": [
    "C21_refuted_tight",
    "C70_loop"
   ],
   "note": "REFUTED at start + 2d + 1 = finish: the second fade starts a frame late and reads frame finish, outside the array if the loop ends there. True with start + 2d + 1 < finish: C70"
  },
  {
   "property": "C22",
   "status": "partial",
   "theorems": [
    "C22_refuted"
   ],
   "note": "REFUTED: with two heads the sample is looped whatever the loop type. What holds instead: C68"
  },
  {
   "property": "C23",
   "status": "proved",
   "theorems": [
    "C23_never_wrong"
   ],
   "note": "every history of preload, reload, fetch and loop-setting operations, every block size and buffer count up to 64, files up to 2^31 bytes"
  },
  {
   "property": "C24",
   "status": "proved",
   "theorems": [
    "C24_read"
   ],
   "note": "read() on a file source, every state and request"
  },
  {
   "property": "C25",
   "status": "proved",
   "theorems": [
    "C25_wav",
    "C25_raw",
    "C25_speed"
   ],
   "note": "every rate on the grid num/2^q, every update size; RAW on an object without left-over header offset (see C32)"
  },
  {
   "property": "C26",
   "status": "partial",
   "theorems": [
    "C26_forward_partial",
    "C26_refuted"
   ],
   "note": "REFUTED in full: reversing right after the start of a long file. True fragment: forwards and in looped playback reload returns; the exact condition is C54"
  },
  {
   "property": "C27",
   "status": "partial",
   "theorems": [
    "C27_none_partial",
    "C27_refuted"
   ],
   "note": "REFUTED in full: a looping 12000-byte file. True fragments: without looping, and with all buffers present (C55)"
  },
  {
   "property": "C28",
   "status": "partial",
   "theorems": [
    "C28_raw_partial",
    "C28_refuted"
   ],
   "note": "REFUTED in full: a WAV file misses 22 samples per update. True fragment: mono RAW files"
  },
  {
   "property": "C29",
   "status": "partial",
   "theorems": [
    "C29_refuted",
    "C29_during_partial"
   ],
   "note": "REFUTED: loadBuffer overwrites the data of a buffer that still carries the index and size of the block it held, so a fetch in that block gets samples of the new block. True for every other block at every interruption point: C29_during_partial, C78; true for forward playback, which never goes back to that block: C91"
  },
  {
   "property": "C30",
   "status": "proved",
   "theorems": [
    "C30_source",
    "C30_no_null",
    "C30_stop",
    "C30_silent"
   ],
   "note": "any number of players; player calls other than stop() are one step each, see DESIGN.md"
  },
  {
   "property": "C31",
   "status": "partial",
   "theorems": [
    "C31_refuted_fraction",
    "C31_refuted_point",
    "C31_refuted_direction"
   ],
   "note": "REFUTED: the fraction of a frame, the last point of linear interpolation and the direction of a ping-pong loop survive a restart. What does hold is C64 and C65"
  },
  {
   "property": "C32",
   "status": "partial",
   "theorems": [
    "C32_refuted",
    "C32_raw_partial"
   ],
   "note": "REFUTED: after a WAV file the header offset is kept and the RAW file starts late. True fragment: objects that never played a WAV file, at rate 1"
  },
  {
   "property": "C33",
   "status": "proved",
   "theorems": [
    "C33_balanced",
    "C33_complete"
   ],
   "note": ""
  },
  {
   "property": "C34",
   "status": "proved",
   "theorems": [
    "C34_sends"
   ],
   "note": ""
  },
  {
   "property": "C35",
   "status": "partial",
   "theorems": [
    "C35_exhausted_partial",
    "C35_requests_partial",
    "C35_refuted"
   ],
   "note": "REFUTED in full: array players are never attached to the event responder, so their close requests are lost and isPlaying() stays true (C63). True fragments: the requests themselves, and file players in yield mode (C62) and in polled mode (C96, with the discipline whose need C97 shows)"
  },
  {
   "property": "C36",
   "status": "proved",
   "theorems": [
    "C36_nested",
    "C36_mask"
   ],
   "note": "without setForceResponse; other code may switch on other yield checks meanwhile"
  },
  {
   "property": "C37",
   "status": "proved",
   "theorems": [
    "C37_fifo",
    "C37_calm"
   ],
   "note": "players never attached for yield() before (see C59)"
  },
  {
   "property": "C38",
   "status": "partial",
   "theorems": [
    "C38_first_partial",
    "C38_refuted"
   ],
   "note": "REFUTED in full: the second of two pending players is detached and its event is run all the same (removeFromList tests _prev instead of _aprev). True fragment: the first in the queue"
  },
  {
   "property": "C39",
   "status": "partial",
   "theorems": [
    "C39_idle_partial",
    "C39_refuted",
    "C39_own_refuted"
   ],
   "note": "REFUTED in full: stop and retrigger of one player loses the event of another for ever, and a stopped player's own event stays pending. True fragment: players stopped or replayed while nothing of theirs is pending"
  },
  {
   "property": "C40",
   "status": "proved",
   "theorems": [
    "C40_close",
    "C40_bounded"
   ],
   "note": "memory counted as heap blocks"
  },
  {
   "property": "C41",
   "status": "partial",
   "theorems": [
    "C41_constant",
    "C41_array",
    "C41_read",
    "C41_rawfile_partial",
    "C41_refuted_wav"
   ],
   "note": "REFUTED for WAV files: the headers are counted as audio (a file of 0.9 ms has length 1 ms). True for arrays and RAW files. The exact law for all files is C66"
  },
  {
   "property": "C42",
   "status": "partial",
   "theorems": [
    "C42_zero_partial",
    "C42_refuted_end",
    "C42_refuted_reverse",
    "C42_refuted_byte"
   ],
   "note": "REFUTED: when playback ends the position lies beyond the file (or before it, which is an undefined conversion), and a one-byte file divides 0 by 0. True with the position inside the file: C67"
  },
  {
   "property": "C43",
   "status": "proved",
   "theorems": [
    "C43_rate",
    "C43_two_heads"
   ],
   "note": "positions that fit 32 bits; the exact new state is given"
  },
  {
   "property": "C44",
   "status": "partial",
   "theorems": [
    "C44_refuted",
    "C44_loop_here_partial",
    "C44_header"
   ],
   "note": "REFUTED for WAV files: the loop is shifted by header/channels frames (C44_header; concrete file: C44_refuted). True for arrays forwards at rate 1.0"
  },
  {
   "property": "C45",
   "status": "partial",
   "theorems": [
    "C45_silent",
    "C45_refuted"
   ],
   "note": "REFUTED: playWav(array,length) never plays anything (C45_silent, for every array)"
  },
  {
   "property": "C46",
   "status": "partial",
   "theorems": [
    "C46_blocks_partial",
    "C46_refuted"
   ],
   "note": "REFUTED in full: the rest of the last block is left-over buffer content. True fragment: whole blocks past the end, on drivers that seek there"
  },
  {
   "property": "C47",
   "status": "partial",
   "theorems": [
    "C47_refuted_zero",
    "C47_refuted_huge",
    "C47_refuted_nine"
   ],
   "note": "REFUTED: zero, >= 0x8000 and (with interpolation) > 8 channels are undefined behaviour, the first two for every such file"
  },
  {
   "property": "C48",
   "status": "partial",
   "theorems": [
    "C48_mono_partial",
    "C48_refuted"
   ],
   "note": "REFUTED in full for stereo (C48_refuted); true fragment proved for mono"
  },
  {
   "property": "C49",
   "status": "proved",
   "theorems": [
    "C49_mono",
    "C49_from"
   ],
   "note": "arrays"
  },
  {
   "property": "C50",
   "status": "proved",
   "theorems": [
    "C50_forward",
    "C50_backward"
   ],
   "note": "arrays; rates num/2^q"
  },
  {
   "property": "C51",
   "status": "proved",
   "theorems": [
    "C51_pingpong_mono",
    "C51_inside"
   ],
   "note": "arrays"
  },
  {
   "property": "C52",
   "status": "proved",
   "theorems": [
    "C52_safe",
    "C52_frames"
   ],
   "note": "single head, no interpolation"
  },
  {
   "property": "C53",
   "status": "proved",
   "theorems": [
    "C53_endless"
   ],
   "note": "single head, no interpolation"
  },
  {
   "property": "C54",
   "status": "proved",
   "theorems": [
    "C54_reload_returns"
   ],
   "note": ""
  },
  {
   "property": "C55",
   "status": "proved",
   "theorems": [
    "C55_full_safe"
   ],
   "note": ""
  },
  {
   "property": "C56",
   "status": "proved",
   "theorems": [
    "C56_wav_unity",
    "C56_raw_unity"
   ],
   "note": "RAW on an object without left-over header offset (see C32)"
  },
  {
   "property": "C57",
   "status": "proved",
   "theorems": [
    "C57_wav_pitch",
    "C57_raw_pitch",
    "C57_wav_count"
   ],
   "note": "RAW on an object without left-over header offset (see C32)"
  },
  {
   "property": "C58",
   "status": "proved",
   "theorems": [
    "C58_yield"
   ],
   "note": "EventResponder as modelled in ResponderModel.v"
  },
  {
   "property": "C59",
   "status": "proved",
   "theorems": [
    "C59_switch"
   ],
   "note": ""
  },
  {
   "property": "C60",
   "status": "proved",
   "theorems": [
    "C60_leaks"
   ],
   "note": ""
  },
  {
   "property": "C61",
   "status": "partial",
   "theorems": [
    "C61_refuted"
   ],
   "note": "REFUTED for LittleFS and SerialFlash; the SD reader delivers silence (Example C61_sd). play() is not exposed by the player classes"
  },
  {
   "property": "C62",
   "status": "proved",
   "theorems": [
    "C62_stops"
   ],
   "note": ""
  },
  {
   "property": "C63",
   "status": "proved",
   "theorems": [
    "C63_never"
   ],
   "note": "yield mode"
  },
  {
   "property": "C64",
   "status": "proved",
   "theorems": [
    "C64_raw",
    "C64_wav",
    "C64_file"
   ],
   "note": ""
  },
  {
   "property": "C65",
   "status": "proved",
   "theorems": [
    "C65_array",
    "C65_file"
   ],
   "note": ""
  },
  {
   "property": "C66",
   "status": "proved",
   "theorems": [
    "C66_file"
   ],
   "note": ""
  },
  {
   "property": "C67",
   "status": "proved",
   "theorems": [
    "C67_bounded",
    "C67_monotone"
   ],
   "note": ""
  },
  {
   "property": "C68",
   "status": "proved",
   "theorems": [
    "C68_endless"
   ],
   "note": ""
  },
  {
   "property": "C69",
   "status": "proved",
   "theorems": [
    "C69_gain",
    "C69_ready",
    "C69_blend"
   ],
   "note": ""
  },
  {
   "property": "C70",
   "status": "proved",
   "theorems": [
    "C70_loop"
   ],
   "note": ""
  },
  {
   "property": "C71",
   "status": "proved",
   "theorems": [
    "C71_accuracy"
   ],
   "note": ""
  },
  {
   "property": "C72",
   "status": "proved",
   "theorems": [
    "C72_delay"
   ],
   "note": ""
  },
  {
   "property": "C73",
   "status": "proved",
   "theorems": [
    "C73_forward",
    "C73_backward"
   ],
   "note": ""
  },
  {
   "property": "C74",
   "status": "proved",
   "theorems": [
    "C74_linear"
   ],
   "note": ""
  },
  {
   "property": "C75",
   "status": "proved",
   "theorems": [
    "C75_cubic"
   ],
   "note": ""
  },
  {
   "property": "C76",
   "status": "partial",
   "theorems": [
    "C76_refuted",
    "C74_linear"
   ],
   "note": "REFUTED: at rate 2.5 the ramp 1,2,3,... comes out as 2,3,7,8,12,13, because the two mixed points are the frames around two consecutive output positions and not two neighbouring frames. True for rates up to 1: C74"
  },
  {
   "property": "C77",
   "status": "proved",
   "theorems": [
    "C77_drift",
    "C77_heard"
   ],
   "note": ""
  },
  {
   "property": "C78",
   "status": "proved",
   "theorems": [
    "C78_during",
    "C78_between",
    "C78_sequential",
    "C78_histories"
   ],
   "note": ""
  },
  {
   "property": "C79",
   "status": "proved",
   "theorems": [
    "C79_play",
    "C79_session"
   ],
   "note": ""
  },
  {
   "property": "C80",
   "status": "proved",
   "theorems": [
    "C80_buffered"
   ],
   "note": ""
  },
  {
   "property": "C81",
   "status": "proved",
   "theorems": [
    "C81_timeline"
   ],
   "note": ""
  },
  {
   "property": "C82",
   "status": "proved",
   "theorems": [
    "C82_raw",
    "C82_wav"
   ],
   "note": "C82_start_refuted: the start condition is needed"
  },
  {
   "property": "C83",
   "status": "proved",
   "theorems": [
    "C83_raw",
    "C83_wav"
   ],
   "note": ""
  },
  {
   "property": "C84",
   "status": "proved",
   "theorems": [
    "C84_raw",
    "C84_wav"
   ],
   "note": ""
  },
  {
   "property": "C85",
   "status": "proved",
   "theorems": [
    "C85_wav",
    "C85_raw"
   ],
   "note": ""
  },
  {
   "property": "C86",
   "status": "proved",
   "theorems": [
    "C86_raw",
    "C86_wav",
    "C86_unity"
   ],
   "note": ""
  },
  {
   "property": "C87",
   "status": "partial",
   "theorems": [
    "C87_refuted",
    "C86_raw",
    "C86_wav"
   ],
   "note": "REFUTED: started in the last block of a loop whose first blocks are not buffered, playback jumps back before these have been read: 156 samples are silence. True if the buffers begin before the loop or end inside it: C86"
  },
  {
   "property": "C88",
   "status": "partial",
   "theorems": [
    "C88_refuted",
    "C89_raw",
    "C89_wav"
   ],
   "note": "REFUTED: if the loop ends exactly at the end of a block and has more blocks than there are buffers, the block of the end position is never read, so the reload never turns round, and everything but the last seven blocks is silence from the first pass back on. True if the frame where the direction changes reaches into the block of the loop end: C89"
  },
  {
   "property": "C89",
   "status": "proved",
   "theorems": [
    "C89_raw",
    "C89_wav",
    "C89_unity"
   ],
   "note": ""
  },
  {
   "property": "C90",
   "status": "partial",
   "theorems": [
    "C90_refuted_late",
    "C90_refuted_below",
    "C89_raw",
    "C89_wav"
   ],
   "note": "REFUTED twice: started in the last blocks of the loop, the buffers reach beyond its end and the block before the start is not loaded on the way back; with start mode \"sample\" the way back goes below the loop start, where the reload does not follow. True if the start is inside the loop with its buffers, and frame 0 and the loop start share a block: C89"
  },
  {
   "property": "C91",
   "status": "proved",
   "theorems": [
    "C91_raw",
    "C91_wav"
   ],
   "note": ""
  },
  {
   "property": "C92",
   "status": "partial",
   "theorems": [
    "C92_refuted",
    "C91_raw",
    "C91_wav"
   ],
   "note": "REFUTED: after turning just behind a block boundary the block just left counts as unused; the reload overwrites it while the play position comes back into it, and samples of another block are played without a counted miss. True for forward playback: C91"
  },
  {
   "property": "C93",
   "status": "partial",
   "theorems": [
    "C93_refuted",
    "C91_raw",
    "C91_wav"
   ],
   "note": "REFUTED: an update that interrupts a reload between its last look at the buffers and the reset of their marks marks a buffer as read; the reset forgets it, so if this happens at every update no buffer is ever replaced: the fifth update of 64 frames is silent, although reloads between updates prevent all misses. What remains true is C91: the missed samples are silent and counted, and C94: reloads between updates make up for it"
  },
  {
   "property": "C94",
   "status": "proved",
   "theorems": [
    "C94_raw",
    "C94_wav"
   ],
   "note": ""
  },
  {
   "property": "C95",
   "status": "proved",
   "theorems": [
    "C95_sharp"
   ],
   "note": ""
  },
  {
   "property": "C96",
   "status": "proved",
   "theorems": [
    "C96_polled"
   ],
   "note": ""
  },
  {
   "property": "C97",
   "status": "partial",
   "theorems": [
    "C97_refuted",
    "C96_polled"
   ],
   "note": "REFUTED: playing player 0 anew while its reload is pending unlinks the pending close of player 1, which then plays (silence) for ever under any further updates, polls and yields. True with the discipline of C96"
  },
  {
   "property": "C98",
   "status": "proved",
   "theorems": [
    "C98_raw",
    "C98_wav",
    "C98_array",
    "C98_float"
   ],
   "note": ""
  },
  {
   "property": "C99",
   "status": "partial",
   "theorems": [
    "C99_refuted",
    "C99_refuted_flash",
    "C98_raw"
   ],
   "note": "REFUTED: played forwards at 1.0 across a block border of an SD file and then back at -2.0, 191 samples are missed and a whole update is silent; on serial flash also at -1.0, with most of every update lost. Rates that are not negative: C98"
  }
 ]
}