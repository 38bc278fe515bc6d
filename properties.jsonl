{"id": "C01", "title": "Key names denote the right key", "statement": "Key(string) accepts exactly the strings made of one letter A-G or a-g optionally followed by one '#' or 'b'; for each of them getInt() is (tonic pitch class) for an upper-case letter and 12 + (tonic pitch class) for a lower-case one, where the tonic pitch class is the usual semitone of the letter raised or lowered by the accidental modulo 12. For every other string the object holds no key value and an empty name, so reading it is undefined behaviour.", "quantifier": "every string of characters, of any length", "why_tests_cant": "There are infinitely many strings that must be rejected; a test can only sample them, and an uninitialised int can hold a plausible value in a test run.", "anchors": ["src/key.cc: Key::Key(std::string), Key::initStringToIntMap", "include/key.h: enKey, m_allKeyStrings"]}
{"id": "C02", "title": "Canonical key names round-trip", "statement": "For every valid key, building a Key again from its getString() gives an equal key, two different valid key numbers never share a name, and the key name of a Key built from a string is the string itself (not the canonical spelling), so equal keys may print differently only if they were built from strings.", "quantifier": "every key number 0..23, every integer outside it, and every string", "why_tests_cant": "Needs all integers (including negative ones going through the unsigned cast) and all strings, not a few spellings.", "anchors": ["src/key.cc: Key::Key(int), Key::Key(std::string), Key::getString"]}
{"id": "C03", "title": "Relative, parallel, dominant and subdominant form the circle-of-fifths algebra", "statement": "For every valid key: getRelativeKey and getParallelKey are involutions that switch mode; the relative minor lies nine semitones above and shares the seven notes of the diatonic scale; the parallel keeps the tonic; getDominantKey and getSubDominantKey are mutually inverse, keep the mode and move the tonic by 7 and 5 semitones; iterating the dominant visits all 12 tonics of the mode and returns after exactly 12 steps; every key reachable from any other through these operations.", "quantifier": "every valid key and every sequence of neighbour operations", "why_tests_cant": "The closure and order-12 statements quantify over all sequences of operations.", "anchors": ["src/key.cc: getRelativeKey, getParallelKey, getDominantKey, getSubDominantKey, isMajorKey, isMinorKey"]}
{"id": "C04", "title": "Key comparison is a total order compatible with enharmonic spelling", "statement": "On constructed valid keys operator== is an equivalence, operator< a strict total order, exactly one of a<b, a==b, b<a holds, != is the negation of ==, and two accepted spellings compare equal exactly when they denote the same tonic and mode; assignment makes the target equal to the source with the same printed name.", "quantifier": "all pairs and triples of keys built by any constructor from any argument", "why_tests_cant": "std::map<Key,...> silently misbehaves if the order law fails for one pair; it has to hold for all pairs and triples.", "anchors": ["src/key.cc: operator==, operator!=, operator<, operator="]}
{"id": "C05", "title": "Pitch-class names are case-insensitive and canonicalised", "statement": "PitchClass(string) accepts exactly the strings that are, ignoring letter case, one letter a-g optionally followed by '#' or 'b'; the value is the semitone of that note modulo 12, the printed name is the canonical spelling of the value, and re-parsing the printed name gives the same value. Every other string and every integer outside 0..11 leaves the value unset.", "quantifier": "every string and every integer", "why_tests_cant": "Infinitely many rejected inputs; a sample cannot rule out an accidental acceptance.", "anchors": ["src/pitchclass.cc: PitchClass::PitchClass, initStringToIntMap, getString"]}
{"id": "C06", "title": "Emission table is the profile transposed to each tonic", "statement": "getKeyProfileMap() gives, for every key k and pitch class p, the selected profile of k's mode at scale position (p - tonic(k)) mod 12; consequently each row is a permutation of the profile (same multiset, same exact sum), and transposing key and pitch class together never changes the entry.", "quantifier": "every pair of valid profile names, every custom pair of 12-value arrays (any doubles, including NaN and infinities), every key and pitch class", "why_tests_cant": "Custom arrays are arbitrary doubles; the statement is about every array at once.", "anchors": ["src/keyprofile.cc: KeyProfile::KeyProfile, getKeyProfileMap, getMajorKeyProfile, getMinorKeyProfile"]}
{"id": "C07", "title": "Unknown profile names silently select the all-zero table", "statement": "If either of the two profile names is not a stored profile of its mode (and not 'custom'), both selections are dropped: the reported names are empty and every emission entry is 0 for all 24 keys, whatever the other name is; if both are stored, the reported names are the given ones and the table is theirs.", "quantifier": "every pair of strings and every pair of custom arrays", "why_tests_cant": "Ranges over all strings; also the interaction of one valid with one invalid name is easy to miss.", "anchors": ["src/keyprofile.cc: KeyProfile::KeyProfile (4 overloads), isValidMajorKeyProfile, isValidMinorKeyProfile, whichMajorKeyProfile"]}
{"id": "C08", "title": "Profile validity queries are not stable across reads", "statement": "A user expects isValidMajorKeyProfile(name) to depend only on the name and the constructor arguments. It does not: after reading the table of an object built with an unknown name, the empty name has become a valid profile. For objects built with known names the answer never changes, for any sequence of reads and queries.", "quantifier": "every construction and every sequence of read and query calls on the object", "why_tests_cant": "The property is about all call histories on one object.", "anchors": ["src/keyprofile.cc: getMajorKeyProfile, getMinorKeyProfile, isValidMajorKeyProfile, isValidMinorKeyProfile"]}
{"id": "C09", "title": "Stored profiles are probability distributions with no dead pitch class", "statement": "Every built-in major and minor profile has twelve non-negative finite entries whose exact sum differs from 1 by at most 2e-2 and by at most 1e-6 for the profiles that the command line offers, and for every pitch class some major key and some minor key emit it with positive probability.", "quantifier": "every stored profile name, every pitch class", "why_tests_cant": "The entries are doubles: the claim is about the exact values of the rounded constants, not about a printed approximation.", "anchors": ["src/keyprofile.cc: initKeyProfileArrays"]}
{"id": "C10", "title": "Transition table depends only on interval and modes", "statement": "getKeyTransitionMap() gives from major a to major b the array entry (b-a) mod 12, from major a to minor b the entry 12 + (b-a) mod 12, from minor to minor the entry (b-a) mod 12 and from minor a to major b the entry 12 + (b-a+9) mod 12; transposing both keys by the same interval never changes the probability.", "quantifier": "every transition array of 24 doubles (built-in or custom), every pair of keys and every transposition", "why_tests_cant": "Ranges over all custom arrays; rotations off by one can cancel on symmetric samples such as the built-in tables.", "anchors": ["src/keytransition.cc: KeyTransition::getKeyTransitionMap"]}
{"id": "C11", "title": "Transition rows and columns carry the same mass", "statement": "For every array, each of the 24 rows of the transition table and each of its 24 columns is a permutation of the 24 array values; so if the array sums to one the table is doubly stochastic.", "quantifier": "every array of 24 values, every key", "why_tests_cant": "All arrays at once.", "anchors": ["src/keytransition.cc: getKeyTransitionMap"]}
{"id": "C12", "title": "Built-in transition tables are reversible; custom ones need not be", "statement": "For every built-in array the probability of moving from key a to key b equals that of moving from b to a. For custom arrays this holds exactly when entry d equals entry -d in the first half and entry 12+d equals entry 12+(9-d) in the second; in particular a custom array that distinguishes the relative from the parallel key has them swapped for minor starting keys.", "quantifier": "every stored array and every custom array, every pair of keys", "why_tests_cant": "The built-in arrays hide the swap, so any test with them passes; the characterisation needs all arrays.", "anchors": ["src/keytransition.cc: initKeyTransitionArrays, getKeyTransitionMap"]}
{"id": "C13", "title": "Built-in transition arrays are distributions and their unknown names select zeros", "statement": "linear, exponential2, exponential10, zero and symmetrical consist of the correctly rounded quotients of positive (resp. 0/1) integers whose exact sum is 1; heatmap does not sum to 1; an unknown name yields an empty selected name and the all-zero array; 'custom' yields the given array unchanged.", "quantifier": "every stored name, every other string, every custom array", "why_tests_cant": "All strings; exact arithmetic on the constants.", "anchors": ["src/keytransition.cc: KeyTransition::KeyTransition, initKeyTransitionArrays, getKeyTransitionArray"]}
{"id": "C14", "title": "Viterbi returns one valid key per observation", "statement": "Whenever runViterbi completes on a fresh model, the key sequence has exactly as many keys as there are observations, every key is one of the model's states, and the status is ready.", "quantifier": "every non-empty observation sequence, every state list, every probability tables (any doubles, including NaN, infinite and negative) and every behaviour of log10", "why_tests_cant": "Unbounded sequence lengths and arbitrary tables.", "anchors": ["src/hiddenmarkovmodel.cc: HiddenMarkovModel::runViterbi, getKeySequence"]}
{"id": "C15", "title": "Viterbi path is optimal in the machine's own arithmetic", "statement": "With probabilities that are non-negative doubles whose products neither overflow nor are NaN, no other state sequence of the same length has a larger score than the returned one, where the score of a sequence is the left-to-right double-precision sum of log10(transition*emission) with IEEE rounding at each step.", "quantifier": "every non-empty observation sequence, every state list, every table and every alternative path (exponentially many)", "why_tests_cant": "The number of competing paths is exponential in the length; floating-point rounding could in principle break the dynamic programming argument and tests cannot enumerate.", "anchors": ["src/hiddenmarkovmodel.cc: runViterbi"]}
{"id": "C16", "title": "Reported probabilities are path scores", "statement": "getMaximumProbability() equals the score of the returned path and is the largest entry of getProbabilityVector(); entry s of that vector is the largest score of any path ending in state s (and -infinity if there is none of positive probability); entries of numbers that are not states are 0; the vector always has 24 entries.", "quantifier": "every non-empty observation sequence, tables and states as in C15", "why_tests_cant": "Quantifies over all paths ending in each state.", "anchors": ["src/hiddenmarkovmodel.cc: runViterbi, getMaximumProbability, getProbabilityVector"]}
{"id": "C17", "title": "Result does not depend on hash-table iteration order unless scores tie", "statement": "The final layer is scanned in unordered_map order. Maximum probability and probability vector are the same for every iteration order; the key sequence is the same for every order whenever the best final score is attained by one state only; when it is attained by several, there are orders giving different keys, and this happens on real inputs (a single note with the default profiles).", "quantifier": "every iteration order of the container, every input", "why_tests_cant": "A test runs one standard library with one order; the C++ standard allows any.", "anchors": ["src/hiddenmarkovmodel.cc: runViterbi (lines 228-236)"]}
{"id": "C18", "title": "Returned path is nearly the most probable one in exact arithmetic", "statement": "If log10 is accurate to a stated bound, the exact probability of the returned path is at least the exact probability of every other path times 10^(-2*B(n)) where B(n) is an explicit rounding bound growing with the length n.", "quantifier": "every non-empty sequence of n observations, every positive table in a stated range, every path", "why_tests_cant": "An accuracy claim over all inputs and all lengths; tests cannot compute the exact optimum for long inputs.", "anchors": ["src/hiddenmarkovmodel.cc: runViterbi"]}
{"id": "C19", "title": "Running Viterbi without observations is undefined behaviour", "statement": "A user expects a model with no observations to return an empty key sequence or an error status. Instead every run with an empty observation sequence reads outside the observation vector, whatever the states and tables are (if there is at least one state).", "quantifier": "every state list and tables, the empty observation sequence", "why_tests_cant": "Undefined behaviour may look fine in a test run.", "anchors": ["src/hiddenmarkovmodel.cc: runViterbi (lines 191, 199)"]}
{"id": "C20", "title": "Re-running the model corrupts the key sequence", "statement": "A user expects a second runViterbi() on the same object to give the same getKeySequence(). It appends instead: after m runs the sequence is not the path (for paths that are not all the same reversed) and its length is m times the number of observations; maximum probability and probability vector stay the same.", "quantifier": "every model on which the first run completes, every number of runs", "why_tests_cant": "A statement about all call histories.", "anchors": ["src/hiddenmarkovmodel.cc: runViterbi (m_keySequence never cleared)"]}
{"id": "C21", "title": "Viterbi completes exactly when some explanation has positive probability", "statement": "On non-empty observations runViterbi either completes or throws std::out_of_range; it throws exactly when every state's final score is not above -infinity, i.e. for tables as in C15 exactly when every path has a zero-probability step. main does not catch the exception.", "quantifier": "every observation sequence, states and tables", "why_tests_cant": "Needs all paths.", "anchors": ["src/hiddenmarkovmodel.cc: runViterbi (lines 238-239)", "src/justkeydding.cc: main (line 151)"]}
{"id": "C22", "title": "Detection never fails for the selectable tables", "statement": "For every non-empty note sequence, with any major and minor profile and any transition table selectable on the command line, both models complete without exception and a valid main key is produced, no matter how long the sequence is (no underflow to 'impossible').", "quantifier": "every non-empty pitch-class sequence of any length, every selectable profile pair and transition table, every hash order", "why_tests_cant": "Unbounded length: accumulated log-probabilities must not overflow to -infinity after millions of notes.", "anchors": ["src/justkeydding.cc: main (190-242)", "src/hiddenmarkovmodel.cc: runViterbi"]}
{"id": "C23", "title": "Transposing the music transposes the scores", "statement": "If every observed note is transposed by the same interval, the first model's final score vector is rotated by that interval bit for bit, for every profile pair and transition array including custom ones. The detected key itself is not always transposed: ties are broken by key number, and there is an input where the printed key does not follow the transposition.", "quantifier": "every note sequence, interval, profile arrays and transition array", "why_tests_cant": "Bit-exact equality over all inputs.", "anchors": ["src/justkeydding.cc: main (189-242)", "src/hiddenmarkovmodel.cc: runViterbi", "src/keyprofile.cc: getKeyProfileMap", "src/keytransition.cc: getKeyTransitionMap"]}
{"id": "C24", "title": "The global key is one key for the whole piece and scores keys independently", "statement": "In the second model the returned sequence is constant, each entry of the printed probability vector is the left-to-right double sum of log10(1/24*t(K,k0)) and log10(t(K,ki)) over the local key sequence k0..kn-1, where t is the transition table, and the main key is a key with the largest entry.", "quantifier": "every local key sequence, every transition array", "why_tests_cant": "All sequences and arrays.", "anchors": ["src/justkeydding.cc: main (228-242)", "src/keytransition.cc: 'zero' array"]}
{"id": "C25", "title": "Printed key labels are unambiguous", "statement": "The default output line for the 24 keys is the upper-cased canonical tonic name, a tab, and major or minor; distinct keys print distinct lines, and reading the tonic name and mode back gives the detected key.", "quantifier": "every possible main key", "why_tests_cant": "Finite, but a statement about the composition of three functions over all keys; the inverse must be correct for all of them.", "anchors": ["src/justkeydding.cc: main (272-283)", "src/key.cc: getString"]}
{"id": "C26", "title": "Evaluation score is well defined and ranked", "statement": "With -e and a recognised ground truth the printed score is 1 for the same key, 0.5 if the detected key is the dominant of the truth, 0.3 for its relative, 0.2 for its parallel and 0 otherwise; these cases are mutually exclusive, so their order in the code does not matter; the score is 1 only for the right key. Unlike the dataset scorer, the subdominant gets 0.", "quantifier": "every pair of detected key and ground truth", "why_tests_cant": "Exhaustive over pairs plus comparison of two implementations in two languages.", "anchors": ["src/justkeydding.cc: main (251-271)", "dataset.py: compare_keys, weighted_score"]}
{"id": "C27", "title": "Ground truth comes from the file name", "statement": "For a file name of the form prefix_KEY.ext, with no underscore or dot in KEY and no dot or underscore in ext, -e evaluates against exactly KEY; if the name has no underscore or no dot, nothing is printed; if KEY is not a key name the comparison reads an uninitialised value.", "quantifier": "every prefix (including ones with dots and underscores), key name and extension", "why_tests_cant": "All strings.", "anchors": ["src/justkeydding.cc: main (252-258)", "tools/annotate_inline.py"]}
{"id": "C28", "title": "Input type follows the file extension", "statement": "Without -f the text from the last dot, lower-cased, decides: .wav audio, .csv chromagram, .mid/.midi MIDI, anything else prints the help and exits 0; a name without any dot ends in an uncaught std::out_of_range. The decision is independent of letter case and of everything before the last dot.", "quantifier": "every file name", "why_tests_cant": "All strings, including ones without a dot.", "anchors": ["src/justkeydding.cc: main (73-93)"]}
{"id": "C29", "title": "-f never selects a format", "statement": "A user expects -f wav/csv/midi to override the extension. For every value the option parser admits, no branch matches and the input type is read uninitialised: undefined behaviour for every file name.", "quantifier": "every admitted value of -f and every file name", "why_tests_cant": "Undefined behaviour may look right in a test.", "anchors": ["src/justkeydding.cc: main (62-73), initOptionParser (301-306)"]}
{"id": "C30", "title": "Custom profiles are accepted exactly with 24 numbers", "statement": "With -K, the run proceeds if and only if the text starts with exactly 24 readable numbers followed by the end of the text or by something unreadable; then the first twelve are the major and the last twelve the minor profile, in order; otherwise the help is printed and the exit code is 0. No count of numbers writes outside the arrays.", "quantifier": "every option text", "why_tests_cant": "All texts, all counts.", "anchors": ["src/justkeydding.cc: main (94-116)"]}
{"id": "C31", "title": "Custom transitions beyond 24 values write out of bounds", "statement": "With -T and at most 24 readable numbers the program behaves as for -K (exactly 24 accepted, in order). With more than 24, an element outside the array is written before the count is checked: undefined behaviour for every such text.", "quantifier": "every option text", "why_tests_cant": "All texts; the overflow may go unnoticed in a test.", "anchors": ["src/justkeydding.cc: main (124-141)"]}
{"id": "C32", "title": "Input errors end with the documented status", "statement": "A missing CSV or audio file ends with exit code 1 and an error message and no key on standard output. A missing or unreadable MIDI file is never reported: the reader always claims to be ready.", "quantifier": "every file name and every file system state", "why_tests_cant": "All environments.", "anchors": ["src/chromagram.cc: getChromagramFromCsv, getChromagramFromAudio", "src/midi.cc: Midi::Midi", "src/justkeydding.cc: main (155-188)"]}
{"id": "C33", "title": "CSV columns map to pitch classes A to G#", "statement": "For every CSV file whose tokens are all numbers, the value in column j>=1 of a row is stored at pitch class (9+j-1) mod 12 of that row's timestamp; columns beyond 12 wrap around and overwrite; missing columns of a row with at least one value are 0; rows with a timestamp only, and empty lines, produce nothing.", "quantifier": "every file content with any number of rows and columns", "why_tests_cant": "All file contents.", "anchors": ["src/chromagram.cc: getChromagramFromCsv"]}
{"id": "C34", "title": "Chromagram frames are ordered by time and equal times merge", "statement": "Frames are processed in increasing timestamp order whatever the order of lines; the result does not depend on the order of lines with pairwise different timestamps; among lines with equal timestamp the last value given for a column wins and columns not given by the later line keep the earlier value.", "quantifier": "every file content without NaN timestamps, every permutation of its lines", "why_tests_cant": "All permutations.", "anchors": ["src/chromagram.cc: getChromagramFromCsv", "include/chromagram.h: ChromagramMap"]}
{"id": "C35", "title": "A malformed number aborts the program", "statement": "If any token of a CSV file does not begin with a number (for example a header line), or its value is outside the float range, reading throws std::invalid_argument or std::out_of_range, which main does not catch; a token with trailing garbage after a number is accepted and the garbage ignored.", "quantifier": "every file content", "why_tests_cant": "All texts.", "anchors": ["src/chromagram.cc: getChromagramFromCsv (stof)", "src/justkeydding.cc: main (151)"]}
{"id": "C36", "title": "Discretisation takes the floor of every value", "statement": "After construction the discrete chromagram has the same timestamps as the original and each value is the largest integer not above the original value; values already integral are unchanged.", "quantifier": "every chromagram of finite values", "why_tests_cant": "All doubles.", "anchors": ["src/chromagram.cc: discretizeChromagram"]}
{"id": "C37", "title": "Every chromagram read walks past the last frame", "statement": "A user expects getPitchClassSequence() to be well defined. For every non-empty chromagram the comparison with the following frame dereferences the end iterator at the last frame: undefined behaviour on every CSV or audio input with at least one frame.", "quantifier": "every non-empty chromagram", "why_tests_cant": "The read happens to return stable garbage in tests.", "anchors": ["src/chromagram.cc: getPitchClassSequence (line 50)"]}
{"id": "C38", "title": "Repeated frames count once and magnitudes are reduced by one", "statement": "Whatever value the out-of-range read returns, the note sequence is the concatenation, over the frames that differ from their successor, of max(0, floor(v)-1) copies of each pitch class in order C..B, the last frame being present or absent depending only on that read; so duplicating a frame any number of times does not change the result, and values below 2 contribute nothing.", "quantifier": "every chromagram with values in the non-negative int range", "why_tests_cant": "All chromagrams, all duplication patterns.", "anchors": ["src/chromagram.cc: getPitchClassSequence"]}
{"id": "C39", "title": "Negative magnitudes never terminate normally", "statement": "If a frame that is not skipped contains a value below 0 (CSV input can), the counting loop runs past the smallest int: undefined behaviour; there is no negative input for which the loop stops.", "quantifier": "every chromagram with a negative value in a frame that differs from its successor", "why_tests_cant": "Non-termination or overflow cannot be observed by a test.", "anchors": ["src/chromagram.cc: getPitchClassSequence (lines 55-60)"]}
{"id": "C40", "title": "Chromagram dump and re-read", "statement": "For a proper CSV file the dump printed by --chromaonly is one line per frame: the time, then the twelve values starting at A, each printed with six significant digits. If all numbers are zero or of ordinary size and the printed times differ, reading the dump back succeeds, gives the same number of frames, every value within 6e-6 of the original (whole numbers below a million exactly), and dumping again gives the same text; frames whose printed times coincide are merged. Refuted: that every dump can be read back, that the note sequence is unchanged, that every frame is kept.", "quantifier": "every chromagram", "why_tests_cant": "All chromagrams; the failing values are rare.", "anchors": ["src/chromagram.cc: printOriginalChromagram, getChromagramFromCsv"]}
{"id": "C41", "title": "MIDI notes are the note-on events with non-zero velocity", "statement": "The collected sequence consists of pitch mod 12 of exactly the events whose status high nibble is 9 and whose velocity byte is non-zero, in event order, for any channel; other events do not matter. But the function that collects it never returns it: control reaches the end of a non-void function, so using the result is undefined for every MIDI file.", "quantifier": "every event list", "why_tests_cant": "All event lists; missing return often appears to work.", "anchors": ["src/midi.cc: Midi::getPitchClassSequence"]}
{"id": "C42", "title": "Mono mix-down averages channels and pads with silence", "statement": "In each block, sample i of the mix is the left-to-right float sum of each channel's sample divided by the channel count for i below the number of frames read, and exactly 0 above; one channel, or two equal channels of normal samples, give back the channel exactly, but eight equal channels need not; for samples between -1 and 1 the mix differs from the exact average by at most channels * 2^-22; the number of frames processed equals the number of frames read.", "quantifier": "every file length, channel count and block of samples", "why_tests_cant": "All lengths, including those that are not multiples of the block size.", "anchors": ["src/chromagram.cc: getChromagramFromAudio (178-203)"]}
{"id": "C43", "title": "Numbers in a chromagram file are read to the nearest value", "statement": "A token (not hexadecimal) is accepted by std::stof exactly when it begins with a number after optional blanks and the number is in range, and the result is the nearest float, ties to even; it throws invalid_argument exactly when no number begins the text and out_of_range exactly when the number overflows or underflows. Stream extraction gives the nearest double of the longest number-like prefix. The two readers do not accept the same texts (refuted).", "quantifier": "every text", "why_tests_cant": "All texts; nearest-value reading fails only on rare inputs.", "anchors": ["src/chromagram.cc: getChromagramFromCsv (stof)", "src/justkeydding.cc: stringToDoubleArray"]}
{"id": "C44", "title": "Numbers are printed with six significant digits, correctly rounded", "statement": "The printed text of a double is the unique one described by %g with precision 6: six significant digits nearest to the value, ties to even digit, trailing zeros removed, exponent form below 1e-4 or from 1e6; numbers of at most six digits are printed exactly, the relative error is at most 5e-6 and printing preserves order. Two different doubles can print alike (refuted otherwise).", "quantifier": "every double", "why_tests_cant": "All doubles.", "anchors": ["src/chromagram.cc: printOriginalChromagram"]}
{"id": "C45", "title": "Built-in profiles equal the published ratings", "statement": "Every stored major and minor profile entry, as used for emission in any of the 24 keys, is within 1e-16 of the published rating of that scale degree divided by the total of the ratings; no other profile is stored.", "quantifier": "every pair of built-in profiles, key and pitch class", "why_tests_cant": "A wrong digit in one of 240 constants shifts detection slightly and no test fails.", "anchors": ["src/keyprofile.cc: 66-133", "src/hiddenmarkovmodel.cc: emission probabilities"]}
{"id": "C46", "title": "Printed key names use the fewest accidentals", "statement": "The name printed for a key has a signature of at most six accidentals, spells the tonic of that key, and no other accepted name of the same key has fewer; ties (F# over Gb, eb over d#) and the exception key 20 (printed ab with seven flats although g# has five sharps) are the only ones.", "quantifier": "every key and every accepted name", "why_tests_cant": "All 24 keys and all enharmonic names against an independent account of key signatures.", "anchors": ["include/key.h: 95-101", "src/key.cc: 45-101"]}
{"id": "C47", "title": "Built-in transition tables follow nine key classes", "statement": "Every ordered pair of keys is in exactly one of nine classes of key distance, and each stored table gives the pair the class weight correctly rounded: 9..1 over 132, powers of two over 1245, powers of ten over 144442221, same key only, 1/24, or the class number. In the first three, keys within 0, 1 or 2 steps (fifth, relative, parallel) are strictly likelier than all keys farther away; for three steps this fails (refuted).", "quantifier": "every table and every pair or triple of keys", "why_tests_cant": "144 constants whose order decides key changes.", "anchors": ["src/keytransition.cc: 52-88"]}
{"id": "C48", "title": "Python judgement of a predicted key", "statement": "compare_keys is right for every pair of keys: tonic for equal keys, fifth for a fifth either way in the same mode, relative for keys of the same notes, parallel for the same tonic, other otherwise; it is symmetric and unchanged by transposition. It gives the credit of the C++ evaluation except when the true key is a fifth above the detected one (equality for all pairs is refuted). The label -1 of an unknown key is judged nearly as B major, so that it can earn credit (refuted otherwise).", "quantifier": "every pair of keys and every transposition", "why_tests_cant": "Two programs in two languages score the same results; all 576 pairs and the musical meaning are needed.", "anchors": ["dataset.py: compare_keys (77-99)", "src/justkeydding.cc: 259-268"]}
{"id": "C49", "title": "Python score of a list of predictions", "statement": "For any number (up to 2^50) of true and predicted keys, the score is a finite double between 0 and 1, equal to 1 only when all predictions are right, within 1e-15 of the exact mean credit, and followed by the five shares, each correctly rounded. Different lengths give None and no predictions raise ZeroDivisionError.", "quantifier": "every list of keys of every length", "why_tests_cant": "Rounding could push a score above 1 or to exactly 1 for long lists.", "anchors": ["dataset.py: weighted_score (101-116)"]}
{"id": "C50", "title": "Transposed training data and labels agree", "statement": "The twelve transpositions of a data point carry, in every block of 24 features and for every key, the feature of the transposed key at the place of that key; the labels are the transposed label, twelve different keys starting with the original; lists of data points are augmented in order. A length that is not a multiple of 12 raises ValueError. The label -1 does not stay -1 (refuted).", "quantifier": "every data point of any number of blocks, every label, every list of data points", "why_tests_cant": "A wrong direction of rotation would corrupt eleven twelfths of the training set silently.", "anchors": ["dataset.py: transpose (62-74), data_augmentation (118-128)"]}
{"id": "C51", "title": "Key labels of annotation files", "statement": "An annotation is read as key k exactly when its words are an ordinary key name, or a note name in any case with major or minor; otherwise the label is -1. Names known to both programs mean the same key; exactly C flat, F flat, E sharp and B sharp are known to the detector only. annotate_inline writes a file name from which the detector, in any directory, reads the annotated key; an unreadable annotation gives a name on which the detector's evaluation has undefined behaviour.", "quantifier": "every text, file name and directory", "why_tests_cant": "All texts, and a contract between two programs through a file name.", "anchors": ["dataset_creator.py: 48-81, parse_label (148-161)", "tools/annotate_inline.py: 5-82", "src/justkeydding.cc: ground truth"]}
{"id": "C52", "title": "The example forward/Viterbi program finds the total and a heaviest path", "statement": "In exact arithmetic the total probability is the sum of the weights of all sequences of states, and the Viterbi path is a heaviest sequence of states, of one state more than there are observations, with its weight; it is empty exactly when every weight is 0. In double arithmetic, for probabilities in [0,1], the path is heaviest for the weights computed in double arithmetic. The text printed for the built-in example is proved character by character.", "quantifier": "every list of states and observations and all tables", "why_tests_cant": "The number of sequences of states grows exponentially with the number of observations.", "anchors": ["src/ViterbiSTL.cc: forward_viterbi (126-192), main (196-215)"]}
{"id": "C53", "title": "Viterbi path of the chroma plug-in and its first chord", "statement": "For any doubles in tables of matching sizes, ViterbiPath returns one state per frame, all of them existing states. In exact arithmetic, for non-negative tables, no sequence of states has more weight (initial, transition and observation multiplied) than the path, also when a frame had to be restarted. In doubles in [0,1] the path is heaviest for the weights as computed, as long as no frame was restarted. No transition rows, no frames, or a frame with too few values lead to reading outside the tables in spite of the size check. Called by Chordino, the first chord is always the last entry of the dictionary, no chord, whatever the audio.", "quantifier": "every number of states and frames, all tables of doubles including NaN and infinities", "why_tests_cant": "The number of sequences is exponential; the first-chord fact needs all audio.", "anchors": ["nnls-chroma-1.1/viterbi.cpp: ViterbiPath (5-84)", "nnls-chroma-1.1/Chordino.cpp: 531-552"]}
{"id": "C54", "title": "Tables of the optimizer reach the detector", "statement": "Every finite number of a table is handed over as the text with 15 decimal places, correctly rounded, and two tables of 24 finite numbers handed over as -K and -T are what the detector then uses, value by value: the double nearest to the 15-place value. Values in [0,1] move by less than 1e-15 and keep their order; exactly those of at most 5e-16 become 0, so the stored numbers do not always arrive unchanged (refuted). An unknown name is handed over as the word None and makes the detector print its help text.", "quantifier": "every dictionary, name, table of 24 finite doubles and other option", "why_tests_cant": "A contract between two programs through command-line texts, for all doubles.", "anchors": ["optimizer/key_profiles.py: get_as_string (171-177)", "optimizer/key_transitions.py: get_as_string (143-149)", "src/justkeydding.cc: option handling, stringToDoubleArray"]}
{"id": "C55", "title": "Stored tables of the optimizer", "statement": "The optimizer stores, bit for bit, the profiles of the C++ program and its linear, exponential2 and exponential10 transition tables; all its tables have 24 values in [0,1]. A mixture of two profiles is the major half of one and the minor half of the other under the joined name and changes no other entry; with an unknown name nothing changes. The warning about a sum is given when the sum is at most 0.989 and never between 0.99 and 2, so sums that are too large are not reported (refuted).", "quantifier": "every stored table, every dictionary and pair of names, every double sum", "why_tests_cant": "Hundreds of constants typed twice in two languages; all dictionaries and all doubles.", "anchors": ["optimizer/key_profiles.py: 1-170 (mix 127-140, insert_new 142-150)", "optimizer/key_transitions.py: 1-120", "src/keyprofile.cc: 66-133", "src/keytransition.cc: 52-88"]}
{"id": "C56", "title": "Random profiles and transition tables of the optimizer", "statement": "A generated profile consists of whole numbers below the maximum for tonic and fifth and below a half, a quarter or an eighth of it for notes farther from the key, each divided by their total and correctly rounded; a random transition table likewise by the nine key classes. Every such table can come out; if all numbers are 0 ZeroDivisionError is raised, and too small a maximum raises ValueError. The values add up to 1 within 2^-52. With the program's maximum 256 the remotest key never gets a weight. A geometric table has, within 2^-48 relatively, the ratio to the power of the class over the sum, with equal values inside a class and the order of the classes (reversed for a ratio below 1). New members get the running number in their name and change nothing else. That generating always succeeds is refuted.", "quantifier": "every maximum up to 2^52, every sequence of random numbers, every state, every ratio from 2^-20 to 2^20 and every power function accurate to one unit in the last place", "why_tests_cant": "The outcome depends on random draws; failing draws are rare and a test sees a handful of tables.", "anchors": ["optimizer/generator.py: 6-147"]}
{"id": "C57", "title": "The next generation of key profiles", "statement": "Evolving n different stored profiles (n not 4) whose halves add up to 1 gives n different stored profiles with the same guarantee (2^-51 more tolerance per mutation): variants of the first fifth, of another fifth chosen among the rest, of children (three tenths) that join the major half of one and the minor half of another of those, and random ones. A variant is the profile itself or one in which a tenth of one value went to another value of the same half. No stored profile is lost or changed, and no name is given out twice. The only error possible is ZeroDivisionError of the random generator, but four profiles always raise IndexError. The built-in profiles meet the hypotheses. That the best profile survives is refuted.", "quantifier": "every population up to 2^47 profiles, every sequence of random numbers, every state in which no name still to be given out is in use, every maximum from 8 to 2^52", "why_tests_cant": "The result depends on hundreds of random draws; a test sees a handful of populations, and the population of four that fails is easily missed.", "anchors": ["optimizer/evolver.py: 15-87", "optimizer/key_profiles.py: 142-170"]}
{"id": "C58", "title": "The next generation of transition tables", "statement": "Evolving n different tables, geometric ones with a stored ratio or stochastic ones, gives n different tables that were not in use before, each adding up to 1 (2^-51 more tolerance per mutation): successors of the first fifth and of another fifth chosen among the rest, and random ones. The successor of a geometric table is the geometric table of a ratio at most a tenth (up to rounding) larger or smaller; the successor of a stochastic one has a tenth of one value moved to another. No stored table or ratio is lost or changed and no name is given out twice, so no table ever survives as it is. The only error possible is ZeroDivisionError of the random generator. Fewer than five tables are all replaced by random ones. A table named ktg without a stored ratio raises TypeError as soon as it is to be mutated; this holds of every built-in table, so that built-in tables can evolve is refuted.", "quantifier": "every population up to 2^47 tables, every sequence of random numbers, every state in which no name still to be given out is in use, every power function accurate to a unit in the last place, every maximum from 256 to 2^52, ratios between 2^-19 and 2^19", "why_tests_cant": "The result depends on dozens of random draws and on the history of names and ratios; tests with a few seeds see neither a clash of names nor the population sizes at which built-in tables fail.", "anchors": ["optimizer/evolver.py: 89-149", "optimizer/key_transitions.py: 96-141"]}
{"id": "C59", "title": "The evaluator grades pairs of tables fairly", "statement": "The error of a file is a double between 0 and 1; it is 0 exactly when the detector prints a score equal to 1, and 1 when it prints no number. The error of a pair of tables on all files is finite, between 0 and the number of files, at least the error on each file, and 0 exactly when every file has a score of 1: rounding neither hides nor invents an error. A pair that is at least as good on every file is never graded worse.", "quantifier": "every detector whose scores lie between 0 and 1, every list of up to 2^53 files, every squaring function that maps [0,1] to [0,1] and only 1 to 1", "why_tests_cant": "The loop of the optimizer ends when the floating-point sum of errors is exactly 0; whether rounding can make it 0 or keep it from being 0 cannot be told from sample scores.", "anchors": ["optimizer/evaluator.py: 34-68"]}
{"id": "C60", "title": "The genetic algorithm keeps the best pair it has found", "statement": "Of the initial tables the best of all pairs is found, the profiles are put in the order of their errors with the best transition and the transitions in the order of the least error each reached. In every generation only one population changes; it is replaced if the lowest error falls, or stays with a sum of scores that is not larger, and then exactly the new tables are stored, in order; otherwise nothing stored is lost and a failure is counted, and after more than the threshold of failures in a row the other population has its turn. After any number of generations the names in use are different and stored, the recorded lowest error is the error of the recorded best pair, it has never risen, it is at most that of every initial pair, and it is 0 exactly when every file has a score of 1 with that pair. KeyError is never raised; with the shipped populations the only possible error is ZeroDivisionError of the random generator. That the recorded pair is the best of the current populations is refuted.", "quantifier": "every detector with scores between 0 and 1, every initial populations of stored tables, every sequence of random numbers, every number of generations (up to 2^45 for the claim on errors), every threshold", "why_tests_cant": "A run is a long random process over a changing dictionary from which tables are removed by name; tests with a few seeds cannot rule out a removed or overwritten table in a later generation.", "anchors": ["ga.py: 45-174", "optimizer/evaluator.py: 18-44", "optimizer/key_profiles.py: 152-158", "optimizer/key_transitions.py: 112-119"]}
{"id": "C61", "title": "The features of a run are its printed scores read back", "statement": "Python's float() accepts exactly a decimal numeral, inf, infinity or nan with a sign and white space around, and returns the nearest double (infinite if too large); it refuses every other text. The line of 24 scores printed with -p becomes 24 features: each score rounded to six digits and then to the nearest double, infinities kept. The order of the scores is kept, and a score that is 0 or at least 2^-1000 in size changes by at most 6 millionths of itself. Any output that does not have exactly 24 words becomes 24 times -1000000. That different scores become different features is refuted.", "quantifier": "every text, every 24 scores, every output of the detector", "why_tests_cant": "The numbers go through a decimal text and back; loss of order or a wrongly read exponent would show only for particular magnitudes.", "anchors": ["optimizer/ensembler.py: 66-73", "src/justkeydding.cc: 243-250"]}
{"id": "C62", "title": "The ensemble gives one row of 24 finite features per pair of tables", "statement": "For a file from which the detector reads at least one note and a pair of tables of 24 weights between 0 and 1 (a profile with some weight above 5e-16, transitions with all weights above it) the run gives 24 finite features; the feature of each key is its final score with the tables as they arrive at the detector, and the key the detector would print has the greatest feature. All stored tables, and all mixtures of stored profiles, are of this kind. An ensemble of stored names gives one such row per pair, in the order of the profiles and then of the transitions; the shipped ensemble gives 30 rows. With mixed profiles each pair of names stands for the first half of one table and the second half of the other. That this holds for any names is refuted (a_b and c, a and b_c), and a later call uses the ensemble of the first call whatever its flag says.", "quantifier": "every MIDI file, chromagram or recording with at least one note, every list of stored names, both flags, every contents of indeterminate memory, every hash order", "why_tests_cant": "The row is the end of a chain of a decimal command line, two Viterbi decoders, a printed line and a parser; a test sees one file and one pair at a time and cannot exclude an infinite score for another.", "anchors": ["optimizer/ensembler.py: 9-73", "justkeydding_ensemble.py: 28-44", "optimizer/key_profiles.py: 127-138"]}
{"id": "C63", "title": "The evaluator reads only the five credits", "statement": "Whatever the tables, the file and the environment, if the evaluator reads a number from a run of the detector with -e, it is the double nearest to 0, 0.2, 0.3, 0.5 or 1: help texts and empty outputs are never taken for a number. So the assumption of C59 and C60 on the detector holds. With tables as in C62 and a file whose name gives the true key, the evaluator reads the credit of the key that a plain run prints, and it is 1 exactly when that key is the true one. Without a key in the file name there is no score.", "quantifier": "every pair of texts for the tables, every file name, every environment", "why_tests_cant": "The optimizer takes any printed number as a score; that no error message begins like one has to hold for all messages and all counts in them.", "anchors": ["optimizer/evaluator.py: 46-68", "src/justkeydding.cc: 251-271"]}
{"id": "C64", "title": "Features are scaled row by row without changing their order", "statement": "Scaling is done for each row of 24 features on its own and refuses other lengths and infinite features. For a row of moderate size each scaled feature is finite and within 2^-49 (1 + A/R) of its place between the least (-1) and the greatest (1), where R is the range and A the largest size; order is kept; a constant row becomes -1 up to 2^-50 (1 + A). That the results lie between -1 and 1 is refuted.", "quantifier": "every row of doubles up to 2^100 whose different values are at least 2^-100 apart", "why_tests_cant": "Each value is multiplied and shifted in floating point; the error depends on the ratio of size to range, which samples do not exhaust.", "anchors": ["dataset.py: 130-136", "justkeydding_ensemble.py: 45-47"]}
{"id": "C65", "title": "The ensemble prints a key, also for files it cannot read", "statement": "The printed name is the tonic and the mode of the predicted key, and different keys have different names. It is the label of the detector except for one key: C# major instead of Db major. For a file with at least one note the classifier gets the scaled rows of the 30 runs. For every file that the detector refuses (no extension, an unknown one, a missing CSV file, an audio file that cannot be opened or analysed) the classifier gets the same 720 values, all exactly -1, so one and the same key is printed as if it had been detected.", "quantifier": "every classifier, every environment, every file", "why_tests_cant": "That failures are turned into an ordinary answer is a property of all failing files at once, through 30 runs, parsing and scaling.", "anchors": ["justkeydding_ensemble.py: 8-53", "optimizer/ensembler.py: 69-72", "dataset.py: 130-136"]}
{"id": "C66", "title": "Every row of a new dataset belongs to the label beside it", "statement": "A dataset folder is accepted exactly if it has a features folder that is not empty and holds only names with a dot whose last part is mid, csv or wav; the first other name ends the program (with an IndexError if it has no dot). The dataset is named after the last part of its path. When all features have been computed, features and labels are listed under the same distinct stems (names without the last part) in the same order; the row of a stem is what a fresh ensemble answers for the last file with that stem, and its label is that of the first line of the annotation of that stem. If the stems differ there is exactly one row and label per file. If an annotation is missing, nothing is written. Refuted: that there is one row per file in general, since two files such as a.mid and a.wav share one row.", "quantifier": "every dataset folder, every list of tables, every environment in which the detector is run, every annotation and split text", "why_tests_cant": "The rows and labels come from a loop over any number of files that shares one cached ensemble between them, and are put into two dictionaries by name.", "anchors": ["dataset_creator.py: 83-189", "optimizer/ensembler.py: 41-49"]}
{"id": "C67", "title": "A stored dataset is read back as it was written", "statement": "If no name contains _features or _annotations, the splits have nonempty names, and the folder holds no other file that begins with the name of the dataset, then the files that are written are read back, in whatever order the folder lists them, as the same tables, the same rows, the same labels, and for each split the rows and labels of the names it lists. A split that is empty or lists an unknown name (such as an empty line) has no arrays. Refuted: that the flag for mixed profiles comes back, since it is always read as False; that rows and labels agree if the folder still holds the labels of an earlier dataset of the same name; that the order of the files does not matter if a split has an empty name (a file called .txt).", "quantifier": "every dataset, every folder it is written to, every order in which the folder lists its files, every list of table names without commas", "why_tests_cant": "It is about every order of the files and every name, through two regular expressions that are applied to the names.", "anchors": ["dataset_creator.py: 191-244", "dataset.py: 8-59"]}
{"id": "C68", "title": "The model is trained on every row, scaled as at prediction time and in all twelve transpositions", "statement": "If several complete datasets with the same tables are written to one folder, under names of which none begins with another, then each is read back as it was, in whatever order the folder lists the files; the nine names of the trainer are such names. The training data then are, for each row in the order of the datasets, twelve rows: the row scaled exactly as the ensemble scales a row for a prediction, in the twelve transpositions, each with the label transposed likewise. If every label is a key, every class is a key. Scaling before or after transposing gives the same numbers bit for bit. A dataset with other tables ends the program. Refuted: that every class is a key in general, since a row with an unknown label adds twelve negative classes, which the ensemble would print as the twelve major keys.", "quantifier": "every number of datasets, every number of rows, every finite feature, every order in which the folder lists its files", "why_tests_cant": "It is about all numbers of rows and all values of the features, including signed zeros, and about every combination of datasets in a folder.", "anchors": ["model_trainer.py: 11-56", "dataset.py: 8-75, 118-136", "justkeydding_ensemble.py: 8-51"]}
{"id": "C69", "title": "nnls() always ends, inside its arrays", "statement": "For any floats, infinities and not-a-number included, and whatever the working arrays held before, nnls() makes at most (3n+2)(n+10) jumps, reads and writes only inside its arrays, reads nothing indeterminate, sets all n elements of x, and sets mode to 1 or 3. With no rows or no columns mode is 2 and nothing else is set, not even the norm. Arrays x or index shorter than n are written past their ends.", "quantifier": "every number of rows and columns, every matrix and right-hand side of floats, every contents of the working arrays", "why_tests_cant": "Rounding can make a column enter and leave the set repeatedly, and not-a-number makes every comparison false; whether the jumps between L30, L60, L210 and L260 always come to an end is a question about all inputs.", "anchors": ["nnls-chroma-1.1/nnls.c: 16-580"]}
{"id": "C70", "title": "In exact arithmetic nnls() solves the non-negative least squares problem", "statement": "In real arithmetic the answer of nnls() is at least 0. If mode is 1, then no other vector that is at least 0 has a smaller residual, and the returned norm is the norm of the residual. This holds for every matrix, also with dependent columns or columns of zeros.", "quantifier": "every number of rows and columns, every real matrix and right-hand side", "why_tests_cant": "Optimality compares the answer with all other non-negative vectors.", "anchors": ["nnls-chroma-1.1/nnls.c: 16-580"]}
{"id": "C71", "title": "In single precision nnls() gives a negative answer only after an overflow", "statement": "In single precision no element of the answer is negative, provided no x is infinite or not a number in any state at L210. Refuted: that it is never negative for finite inputs; there is a 2 by 2 problem of finite floats whose answer contains -infinity, with mode 1.", "quantifier": "every number of rows and columns, every matrix and right-hand side of floats, every state of every execution", "why_tests_cant": "It is about the rounding of the ratio that stops a coefficient at 0, for all floats, and about all states of an execution.", "anchors": ["nnls-chroma-1.1/nnls.c: 411-535", "nnls-chroma-1.1/NNLSChroma.cpp: 396-403"]}
{"id": "C72", "title": "The chroma plug-in gives one feature per frame, unless a tuning is not a number", "statement": "For any samples, infinities and not-a-number included, a run of the chroma plug-in touches nothing outside its arrays and puts one feature with the time stamp of the frame into each output: 256 tuned bins, 84 semitones, 12, 12 and 24 chroma values; the only other outcome is that a tuning which is not a number is converted to an integer, which is undefined. Sound without not-a-number always returns. One sample that is not a number, in a bin that belongs to one of the lowest 162 notes, in a frame which is loud enough elsewhere, makes the whole run undefined, wherever the frame is. The sparse kernel has exactly the positive entries of the dense matrix.", "quantifier": "every number of frames, every sample, every setting, every dictionary, kernel, window and tuning table of the right shape, every atan2 and pow within their contracts", "why_tests_cant": "The mean tuning depends on all frames so far; that it stays a number for all clean sound, and never recovers after one bad sample, is about executions of any length.", "anchors": ["nnls-chroma-1.1/NNLSBase.cpp: 384-533", "nnls-chroma-1.1/NNLSChroma.cpp: 203-481", "nnls-chroma-1.1/chromamethods.cpp: 46-73"]}
{"id": "C73", "title": "The spectra of the chroma plug-in are never negative", "statement": "No value of a tuned spectrum is ever negative, so that the message ERROR: negative value in logfreq spectrum is never written. Without NNLS no value of the semitone spectrum and of the three chromagrams is negative, for every kind of normalisation.", "quantifier": "every number of frames, every sample, every setting", "why_tests_cant": "It is about the rounding of the linear interpolation and of the whitening for all floats, infinities and not-a-number included.", "anchors": ["nnls-chroma-1.1/NNLSChroma.cpp: 257-299, 359-370", "nnls-chroma-1.1/NNLSBase.cpp: 442-533"]}
{"id": "C74", "title": "Each chroma is the windowed sum of its semitones over the octaves, bit for bit", "statement": "A frame whose tuned spectrum has nothing positive gives 84 semitones of +0. Otherwise, without NNLS, a semitone is its bin with half of both neighbours, and with NNLS a semitone whose three bins have no positive sum is +0. Without normalisation the treble and the bass chroma are the sums of the semitones over the seven octaves, from the lowest, weighted by the window, exactly as floats add them, and the joint chroma is the bass followed by the treble. The windows are between 0 and 1, the treble window is symmetric, and the bass window is silent from semitone 37 on.", "quantifier": "every number of frames, every sample, every setting without normalisation", "why_tests_cant": "With NNLS only the significant semitones are added; that leaving out the others never changes a bit, not even the sign of a zero, is about all floats.", "anchors": ["nnls-chroma-1.1/NNLSChroma.cpp: 319-410", "nnls-chroma-1.1/chromamethods.h: 25-36"]}
{"id": "C75", "title": "In exact arithmetic the transcription of a frame is the best one", "statement": "In real arithmetic a frame is transcribed with the semitones whose three bins have a positive sum, no value is negative, and if nnls() reports success then no other non-negative values of these semitones come closer to the spectrum, in the sum of squares over the 256 bins, where each semitone stands for its column of the dictionary.", "quantifier": "every real spectrum of 256 bins and every real dictionary", "why_tests_cant": "It compares the transcription with all others.", "anchors": ["nnls-chroma-1.1/NNLSChroma.cpp: 371-407"]}
{"id": "C76", "title": "Normalised chroma values are between 0 and 1", "statement": "With the setting for the largest value, a chroma of finite values that are not negative, with something positive, becomes values between 0 and 1 with one that is exactly 1; a silent chroma is left alone; and the same holds for the joint chroma as a whole. With the setting for the sum, all values are between 0 and 1, unless a sum overflows. For every setting the lengths stay, and what was not negative stays so.", "quantifier": "every chroma of finite floats that are not negative", "why_tests_cant": "Rounded sums and quotients of all floats.", "anchors": ["nnls-chroma-1.1/NNLSChroma.cpp: 413-469"]}
{"id": "C77", "title": "A note of the plug-in is the weighted sum of its spectral bins", "statement": "process() turns a block into 256 notes: each is the sum, in the order of the kernel, of kernel value times size of the bin, as floats. The size of a bin is the root of the sum of the squares, at most the block length. Bins below the spectral roll-on are left out, and a block in which no bin reaches 2 counts as silence. The running means of the tuning follow their recurrences: the mean over all frames so far, and the local one, which decays with each of the 54 semitones of a frame and not once a frame.", "quantifier": "every block, infinities and not-a-number included, every kernel, every setting, every state of the plug-in", "why_tests_cant": "The kernel and the samples are arbitrary; the roll-on compares sums of arbitrary lengths, and the order of float additions matters for every bit.", "anchors": ["nnls-chroma-1.1/NNLSBase.cpp: 442-533"]}
{"id": "C78", "title": "A tuned spectrum is the note spectrum, shifted by the tuning and whitened", "statement": "If a run returns, the tuned spectrum of each frame is its note spectrum, shifted by linear interpolation and then whitened; the shift is the angle of the three mean values as directions in the plane, in turns, times three bins. With global tuning the angle comes from all frames, also later ones, with local tuning from the frames so far. The angle is at most half a turn, so the shift is a whole number of bins from -2 to 1 and a rest between 0 and 1 after rounding; bins 0, 1 and 253 to 255 are zero.", "quantifier": "every number of frames, every sample, every setting, every atan2 within its contract", "why_tests_cant": "It is about all executions of the state machine over frames of any number.", "anchors": ["nnls-chroma-1.1/NNLSBase.cpp: 484-520", "nnls-chroma-1.1/NNLSChroma.cpp: 203-289"]}
{"id": "C79", "title": "Whitening keeps what is above the running mean", "statement": "SpecialConvolution gives for each bin the weighted sum around it, near the edges that of the nearest bin that has all its neighbours. The whitened spectrum is, where the running deviation is positive, what is above the running mean divided by the deviation to the power of the whitening, or +0, and elsewhere the spectrum itself.", "quantifier": "every spectrum of 256 floats, every window of odd length up to 255, every pow", "why_tests_cant": "All floats and all windows, with the order of additions.", "anchors": ["nnls-chroma-1.1/NNLSChroma.cpp: 276-299", "nnls-chroma-1.1/chromamethods.cpp: 46-73"]}
{"id": "C80", "title": "Silence in, silence out", "statement": "If a run returns, then every frame in which no spectral bin reaches 2 gives only +0 in the tuned spectrum, the semitone spectrum and the three chromagrams, with and without NNLS, for every kind of normalisation, whatever the other frames are.", "quantifier": "every number of frames, every sample, every setting, every finite kernel", "why_tests_cant": "It follows a zero through interpolation, running deviation, NNLS and normalisation for all settings, next to arbitrary other frames, which could leak through the tuning.", "anchors": ["nnls-chroma-1.1/NNLSBase.cpp: 442-533", "nnls-chroma-1.1/NNLSChroma.cpp: 203-481"]}
{"id": "C81", "title": "A whole run prints the best key for the best local keys", "statement": "For a file from which at least one note is read, the program ends with exit code 0. Each note has a key such that no other choice of keys for the notes has a larger score (start 1/24, profile turned to the tonic, transition by the distance of the keys, logarithms added from left to right in double precision), and the key of the piece is one that no other key beats, given these. With -p the 24 scores are printed, even with -e; with -e alone the credit; otherwise the line with the key. If the option parser refuses the options, its code is printed on standard error and returned.", "quantifier": "every note sequence of any length, all offered tables and all usable custom ones, every hash-table order, every monotone log10", "why_tests_cant": "Optimality over all 24^n paths for every n, of the program as a whole.", "anchors": ["src/justkeydding.cc: 38-285"]}
{"id": "C82", "title": "From a sound to the stored chromagram", "statement": "The two programs put together: if the plug-in returns on a list of blocks with normalisation off, and the time stamps, as text, are numbers that differ once rounded to floats, the detector stores one vector per frame, sorted by time, and nothing else. Pitch class p, counted from C, is the weighted sum of the semitones k of that frame with (9 + k) mod 12 = p, because semitone 0 is an A. Whatever the settings, a frame without a bin of size 2 or more is stored as twelve zeros.", "quantifier": "every list of blocks, every kernel, dictionary and setting with which the plug-in is ready, every text of time stamps that denotes pairwise different numbers", "why_tests_cant": "The claim is about all sounds at once and crosses the border between two programs, each of which counts pitch classes from another note.", "anchors": ["nnls-chroma-1.1/NNLSChroma.cpp: 211-486", "nnls-chroma-1.1/NNLSBase.cpp: 442-533", "src/chromagram.cc: ChromagramFromAudio"]}
{"id": "C83", "title": "Memory of the chord decoder", "statement": "ViterbiPath with tables that fit and a buffer delta of at least frames times states doubles, which may be uninitialised, returns without reading an indeterminate value or leaving an array, prints no message, gives one existing state per frame, fills the buffer with the rows of Viterbi's algorithm frame after frame and touches nothing behind them, and appends one factor per frame to the scales. Without transitions or frames the check of the sizes itself reads out of bounds. The check only prints a message: it does not keep the program from reading out of bounds.", "quantifier": "every arithmetic (doubles with infinities and not-a-number, real numbers), every number of states and frames, every content and size of the buffer", "why_tests_cant": "The buffer is one flat array indexed by products; whether each of its cells is written before it is read depends on all loops together, for every size.", "anchors": ["nnls-chroma-1.1/viterbi.cpp: ViterbiPath (5-84)", "nnls-chroma-1.1/Chordino.cpp: 537-547"]}
{"id": "C84", "title": "Scale factors and restarts of the chord decoder", "statement": "In exact arithmetic and for non-negative tables of which some path is possible: every row of delta sums to 1, all scale factors are positive, the path has the largest product of probabilities, and this product times all factors is the entry of the last row at the last state. If a frame ends all paths, the frame before it gets the last state whatever its observations, reached by the best path that ends there; the factor of the frame is 1, and the rest of the path is the one for a fresh start from all states alike that does not look at the frame.", "quantifier": "every number of states and frames, all non-negative tables, every position of the frame that ends the paths", "why_tests_cant": "The statements compare one path with exponentially many, and restarts need frames that tests would have to find.", "anchors": ["nnls-chroma-1.1/viterbi.cpp: ViterbiPath (18-81)"]}
{"id": "C85", "title": "Dictionary of chords", "statement": "chordDictionary, given at least 24 values per type, makes 12 chords of every type and N as the last one. Chord 12t+s has the values of type t moved up s semitones (the bass notes 1, other chord notes a half) divided by their strength, the name made of root, type and, after a slash, the highest bass note other than the root, and the notes of bass and treble in the octaves from 45 and from 63. The tables of note names are right: the name in row s, column k is that of the note s+k semitones above A. The program's own 18 types give 217 chords. With fewer values the table is left. Not true: that chord names are distinct, that the notes of a chord are distinct, and that a chord on another root has exactly the same values.", "quantifier": "every list of types and values, every syntax setting, every weight of N and every power function", "why_tests_cant": "The type table is an input of any size, and the difference between transposed chords is in the last bit of a float.", "anchors": ["nnls-chroma-1.1/chromamethods.cpp: chordDictionary (272-535)", "nnls-chroma-1.1/chromamethods.h: 28"]}
{"id": "C86", "title": "Transcription of chords and their notes", "statement": "From any saliences, Chordino names a chord at the time of every frame where the path of its decoder changes, and N at the last frame; the notes of a chord begin and end with it; there is one likelihood per frame, minus the logarithm of the scale factor, and one value of harmonic change per frame, the divergence of a row of the decoder from the next and 0 for the last. The first event is the last chord of the dictionary at the first frame, whatever was played. With increasing times no note has a negative duration or sounds past the last frame. Not true: that neighbouring events have different names, and that every note has a positive duration.", "quantifier": "every dictionary whose last chord has no notes, every number of frames, all saliences including NaN and infinities, every logarithm", "why_tests_cant": "The path depends on all frames at once, and the claims cover NaN saliences.", "anchors": ["nnls-chroma-1.1/Chordino.cpp: 527-622"]}
{"id": "C87", "title": "Saliences and whole runs of the chord plug-in", "statement": "The salience of a chord in a frame is the share of 1.3 raised to the scalar product of its 24 values with bass and treble chroma, the product kept between 0 and 200 and taken times 0.7 for N; the clip warning is set exactly if a product was above 200. A whole run of the chord plug-in with a dictionary it made itself returns exactly when the chroma plug-in returns on the same blocks, otherwise both convert a NaN tuning to an integer; and it transcribes the saliences of the very semitones the chroma plug-in returns. Without blocks it returns nothing.", "quantifier": "every list of blocks of any samples, every kernel, dictionary and setting with which the plug-in is ready, every table of chord types", "why_tests_cant": "The claim compares two programs on all sounds.", "anchors": ["nnls-chroma-1.1/Chordino.cpp: getRemainingFeatures (270-622)"]}
{"id": "C88", "title": "Rounding and the chord decoder", "statement": "In double precision, with up to 2^20 states, an initial distribution whose entries are 0 or at least 2^-40, transitions of at least 2^-40 and observations of at least 2^-140, the chord decoder never starts again however long the input is, all its scale factors lie between 2^-20 and 2^201, and no path is more probable than the one it returns by more than a factor of (1 + 2^-52)^6 per frame. Exactly the most probable it need not be. For the chord plug-in: if pow(1.3, v) is between 1 and 2^80 for v from 0 to 200 and the chroma and the dictionary consist of numbers of at least 0, the chords that it names and their notes are those of such a path, for probabilities 0.99 of staying and the saliences of the frames.", "quantifier": "every number of frames and states, every sound for which the chroma plug-in returns finite chroma, every dictionary, every power function within the bounds", "why_tests_cant": "Underflow shows only after many frames, and the optimum is over exponentially many paths.", "anchors": ["nnls-chroma-1.1/viterbi.cpp: ViterbiPath (8-124)", "nnls-chroma-1.1/Chordino.cpp: getRemainingFeatures (385-572)"]}
{"id": "C89", "title": "The note dictionary holds the sounds of 84 semitones, and a mixture of them is taken apart again", "statement": "In real arithmetic dictionaryMatrix() adds to column k of the dictionary the sound of semitone k: twenty harmonics, each s times as strong as the one before, each a raised cosine three bins wide. The sound of the next semitone is the same three bins higher, nothing lies below bin 3k+2, bin 3k+3 has at least 1, and no bin has more than 20. No two mixtures of the 84 sounds with different volumes have the same 256 bins. If the spectrum of a frame is such a mixture, the transcription considers every semitone that sounds, and if nnls() reports success it returns every volume exactly.", "quantifier": "every spectral shape s above 0, every volume of at least 0 for each of the 84 semitones, every previous content of the dictionary", "why_tests_cant": "The mixtures are infinitely many, and uniqueness is a statement about all of them.", "anchors": ["nnls-chroma-1.1/chromamethods.cpp: cospuls (74-81), dictionaryMatrix (168-207)", "nnls-chroma-1.1/NNLSChroma.cpp: 371-407"]}
{"id": "C90", "title": "A plug-in that is used as declared works for every sound", "statement": "A plug-in just constructed, given any declared values for any declared parameters and initialised for one channel, a sample rate of at least 1 and a block of 4 to 32768 samples, returns true, has read and written only inside its arrays and read nothing indeterminate, and is in the state that C72 to C82 ask for. Its dictionary consists of numbers from 0 to 20 with at least 1 in the bin of each semitone; its kernel never uses bin 0 of the spectrum. So fewer than 2^18 frames without NaN always give results. A block of fewer than four samples makes it read past the end of a vector.", "quantifier": "every sequence of declared parameter values, every sample rate, every block size in the range, every sound without NaN, every C library that keeps to a short list of laws", "why_tests_cant": "Sample rates, block sizes, parameters and sounds cannot be enumerated, and an access outside an array need not show.", "anchors": ["nnls-chroma-1.1/NNLSBase.cpp: constructor (31-61), setParameter (267-323), initialise (351-423)", "nnls-chroma-1.1/chromamethods.cpp: pitchCospuls (83-95), logFreqMatrix (101-166), dictionaryMatrix (168-207)"]}
{"id": "C91", "title": "initialise() a second time", "statement": "Every call of initialise() that returns, refused or not, makes the window of the running mean 19 values longer, so that the assertion of SpecialConvolution that its length is odd holds exactly after an odd number of calls. In real arithmetic a second call makes the dictionary twice as loud. A call that is refused, because of the number of channels, has nevertheless changed the object: that it leaves the plug-in as it was is false.", "quantifier": "every parameter setting, every sequence of calls with any arguments, every C library", "why_tests_cant": "A test calls initialise() once. The sequences of calls have no bound.", "anchors": ["nnls-chroma-1.1/NNLSBase.cpp: initialise (351-423)", "nnls-chroma-1.1/chromamethods.cpp: SpecialConvolution (46-73)"]}
{"id": "C92", "title": "Parameters of the plug-ins", "statement": "Setting a parameter changes this parameter alone and no table, and it then holds the value, except that useNNLS is cut to an int and tuningmode to 0 or 1. Unknown names and preset are ignored. Only useNNLS can be undefined, for NaN and for values that do not fit an int; no declared value is. The constructor gives every parameter the default declared for it, and every default is in its declared range.", "quantifier": "every state of the plug-in, every name, every float", "why_tests_cant": "Names and floats cannot be enumerated, and undefined conversions need not show.", "anchors": ["nnls-chroma-1.1/NNLSBase.cpp: 31-61, 135-323", "nnls-chroma-1.1/Chordino.cpp: 67-160", "nnls-chroma-1.1/Tuning.cpp: 71-91"]}
{"id": "C93", "title": "Pitches of the tuning plug-in", "statement": "A run of an initialised tuning plug-in returns one value per block, at the time of the block, and one for the whole piece, lasting to the time of the last block. For sound of numbers the values are, within a ten-thousandth of a Hz, the concert pitches 440 * 2^(t/12) of the tunings t that the chroma plug-in computes for the same sound; so all are between the declared minimum 427.47 and 452.9. The declared maximum 452.89 is not kept: a sound half-way between two semitones gives about 452.893.", "quantifier": "every setup that is ready, every list of blocks, every atan2 and pow that keep their contracts", "why_tests_cant": "Sounds and libraries cannot be enumerated, and the declared maximum is exceeded by three thousandths of a Hz, only for sound that is exactly half-way between two semitones.", "anchors": ["nnls-chroma-1.1/Tuning.cpp: 93-215", "nnls-chroma-1.1/NNLSBase.cpp: 442-530"]}
{"id": "C94", "title": "Chord dictionary file", "statement": "A file chord.dict of remarks and types is read as exactly the types that were written, in order, whether or not the last line is ended; when every type has 24 values, the dictionary has 12 chords per type made of the values of its own line, and N. The file shipped with the plug-ins gives the types of the program, with the half-diminished chord called dim7. A line that is a name alone is undefined, a line of blanks is a type without values and spoils the dictionary, and a 25th value shifts all later types.", "quantifier": "every list of entries, every choice of separators, every number reader", "why_tests_cant": "Files cannot be enumerated; reading past the end of the tokens or of the values need not crash.", "anchors": ["nnls-chroma-1.1/chromamethods.cpp: 344-345, 396-438, 440-486", "nnls-chroma-1.1/chord.dictold: 1-31"]}
{"id": "C95", "title": "Initialising the chord plug-in again", "statement": "After its first initialise a chord plug-in uses the chords of its dictionary. After any number of further calls it uses the names of the last call but the values and notes of the first, because chordDictionary appends to the vectors it is given; so a boostN set before a later call has no effect.", "quantifier": "every sequence of calls, every dictionary, every powf", "why_tests_cant": "Needs a host that initialises twice and compares weights; sequences of calls cannot be enumerated.", "anchors": ["nnls-chroma-1.1/Chordino.cpp: 240-251, 277, 494-500, 552-575", "nnls-chroma-1.1/chromamethods.cpp: 478, 492, 527-535"]}
{"id": "C96", "title": "Search for the chord dictionary", "statement": "A non-empty VAMP_PATH is searched directory by directory between its colons; otherwise HOME/vamp, HOME/.vamp, /usr/local/lib/vamp and /usr/lib/vamp are, or with HOME unset directories literally called $HOME. The first chord.dict found is the dictionary, and the tables of the program are used exactly if there is none. The replacement of $HOME ends, after two steps, exactly if the value of HOME does not itself contain $HOME; otherwise initialise never returns.", "quantifier": "every environment, every file system", "why_tests_cant": "Environments cannot be enumerated, and a test cannot observe that a loop never ends.", "anchors": ["nnls-chroma-1.1/chromamethods.cpp: 210-268, 372-394"]}
{"id": "C97", "title": "Numbering the files of a dataset", "statement": "tools/shorten_names.sh renames the features of a dataset to 0000, 0001, ... (more digits from 10000 on) and moves the annotation of each along, with every content kept, if stems are distinct and no file is called like the number of a file listed not after it. A feature that is so called is lost (unless there is a copy), and if all files have their numbers already, as after a first run, all features and their annotations are deleted.", "quantifier": "every dataset, every listing, every content", "why_tests_cant": "Whether data are lost depends on the names and on their order; no test set of folders covers that.", "anchors": ["tools/shorten_names.sh: 1-23"]}
{"id": "C98", "title": "Columns of chroma files", "statement": "bothchroma2chroma.py leaves of each frame (name, time, 12 bass and any number of treble values) the time and the treble values, and the detector then reads exactly these as a chromagram. remove_column.py removes the first column, whatever it is, and the detector reads the rest; a second run removes the times.", "quantifier": "every table of plain fields, every number of rows", "why_tests_cant": "Files have arbitrary many rows and fields.", "anchors": ["tools/billboard/bothchroma2chroma.py: 1-22", "tools/cross-era/remove_column.py: 1-22", "src/chromagram.cc: 105-136"]}
{"id": "C99", "title": "Filtered and duplicate files", "statement": "filter_confident_files.py keeps a feature exactly if an annotation has the same text before its first dot: for names with one dot, exactly if its annotation exists, but not in general. find_duplicates.py calls unique the first file of each sequence of pitch classes and maps every other file to that first one; files with the same notes give the detector the same sequence.", "quantifier": "every folder, every MIDI file", "why_tests_cant": "Names and files are unbounded; the invariant concerns every prefix of the listing.", "anchors": ["tools/billboard/filter_confident_files.py: 1-16", "tools/giantsteps-mtg-key-dataset/filter_confident_files.py: 1-16", "tools/experiment1/find_duplicates.py: 1-21", "src/midi.cc: 39-55"]}
{"id": "C100", "title": "Split into training and test files", "statement": "sample_datapoints.py draws exactly a fifth of the files, rounded down, in spite of the rounding of 0.2, and prints every file in exactly one of the two parts. The parts are disjoint as lists of names without extensions if these names are distinct, and need not be otherwise. For music files the names are the stems the dataset creator uses, and a list saved in the folder splits is read back as that split.", "quantifier": "every folder of at most 2^49 files, every draw", "why_tests_cant": "The product len(files)*0.2 is rounded; one multiple of 5 rounded down would shift the split.", "anchors": ["tools/sample_datapoints.py: 1-22", "dataset_creator.py: 134-143"]}
{"id": "C101", "title": "Extraction of keys writes nothing", "statement": "extract_keys.py prints below the name of each file the keys in its first spine, from top to bottom, and writes nothing: every file of the folder stays or is emptied, and after a run every annotation is empty. A blank line in a file ends the script with IndexError. A dataset with such annotations cannot be made: compute_features never returns, and raises IndexError whenever it would return without annotations. Not true: that the key of a piece is in its annotation.", "quantifier": "every folder of files and every listing of it, every reading of their rows, every dataset and ensemble", "why_tests_cant": "The claim covers all files and the interplay of two scripts that are never run together in a test.", "anchors": ["tools/albrecht/extract_keys.py: 1-22", "dataset_creator.py: 163-189"]}
{"id": "C102", "title": "The tester scores training data", "statement": "Every row that model_tester.py scores is, with its label, among the rows model_trainer.py trains with. The score is the rounded share of right answers; a model that knows its training data by heart gets 1, and whatever one wants to be guessed for all other rows, some model guesses this and gets the score 1 (if no row is trained with two labels). Without a model the tester ends.", "quantifier": "every folder with the nine datasets of the trainer in any listing order, all features that are finite, all labels including unknown ones, every classifier", "why_tests_cant": "The claim compares two programs on all datasets and speaks about all classifiers.", "anchors": ["model_tester.py: 1-22", "model_trainer.py: 13-59", "dataset.py: 62-74, 118-136"]}
{"id": "C103", "title": "A host gets the output it looks for", "statement": "A host that looks for an output of the chroma plug-in by its identifier, as the detector and chromaextract.cpp do, gets exactly the features of this output from the whole run, in order, and nothing of the other outputs; any other identifier gives no output. So the detector works on the treble chroma. Every feature has the declared number of values, and the name of each value is the pitch class of the semitones added there. A host that never asks for the outputs never gets a result, because their numbers are uninitialised.", "quantifier": "all settings, all frames, all identifiers, all semitones", "why_tests_cant": "The claim covers every run, including those that fail, and the use of variables that were never set, which a test may not notice.", "anchors": ["nnls-chroma-1.1/NNLSChroma.cpp: 31-35, 63-183, 208-217, 297, 471-474", "src/chromagram.cc: 163-211", "nnls-chroma-1.1/chromaextract.cpp: 87-137"]}
{"id": "C104", "title": "The outputs of the chord plug-in keep to their declarations", "statement": "Whatever the sound and whichever dictionary of chords is used, every note put out lies between the declared 0 and 127 (in fact in 45-56 or 63-74), every label is the name of a chord of the dictionary at the time of a frame, there is at most one label more than there are frames, and one change value and one likelihood for every frame. A host that looks for an output by its identifier, as chordextract.cpp does for simplechord, gets exactly what goes to this output, and nothing for any other identifier.", "quantifier": "all sounds, all settings, all dictionaries that can be built, all identifiers", "why_tests_cant": "The claim bounds the output for every sound and every dictionary file.", "anchors": ["nnls-chroma-1.1/Chordino.cpp: 162-266, 549-622", "nnls-chroma-1.1/chordextract.cpp: 85-142"]}
