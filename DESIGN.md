# Formal model of justkeydding: design

The code modelled is in `/repo` (read as text, never built or run). All Coq files are in
`rocq/theories`, logical prefix `Verif`. Build: `cd rocq && coq_makefile -f _CoqProject -o Makefile && make -j4`.

## How the model is built

* One Gallina function per C++ function; each definition carries a comment with file and lines.
* A C++ call that may go wrong returns an `outcome`: `Ret v`, `Throws e` (a C++ exception leaves the
  function) or `Undef u` (the C++ standard gives the program no meaning from here on; `u` says why).
  An uninitialised `int` is the value `None` of an `option Z`; reading it is `Undef`.
* `double` and `float` are Flocq's IEEE-754 `binary_float 53 1024` and `binary_float 24 128` with one NaN
  (module `BinarySingleNaN`), operations rounded to nearest even. Constants in the source are modelled as the
  correctly rounded value of the decimal or of the quotient that stands in the source.
* `log10` is not correctly rounded by the C standard, so it is a parameter of the model; theorems that need
  something of it say so in a contract (`log10_ok`, special values and a range; `log10_accurate` for the
  accuracy theorem). A concrete function meeting the contract is defined, so the theorems are not vacuous.
* The iteration order of `std::unordered_map` is a parameter (any permutation of the entries).
* What `*end()` yields is a parameter wherever the model continues past that undefined read.
* The option parser (optparse), the MIDI file reader (midifile), libsndfile and the Vamp host are submodules or
  system libraries that are not in `/repo`; their results are inputs of the model.

## File layout

* `*_Model.v`-style files (`Key.v`, `PitchClass.v`, ...) contain definitions only.
* `*Spec.v` files contain the small independent specifications the theorems are stated against.
* `*Facts.v` files contain the proofs.
* `Props*.v` files contain only property theorems (closed by `exact`), examples showing that hypotheses are
  satisfiable, and `Print Assumptions`.

## Properties and how they are proved

The statements are in `properties.jsonl`; the theorems of each property are in `MANIFEST.json`.

| id | code | how proved |
|----|------|-----------|
| C01 | src/key.cc: Key::Key(std::string), Key::initStringToIntMap; include/key.h: enKey, m_allKeyStrings | table lookup equals a specification parser: case analysis on strings of length at most 2, longer strings rejected by inversion |
| C02 | src/key.cc: Key::Key(int), Key::Key(std::string), Key::getString | sweep over 0..23 lifted by forallb_forall; other numbers by the unsigned comparison |
| C03 | src/key.cc: getRelativeKey, getParallelKey, getDominantKey, getSubDominantKey, isMajorKey, isMinorKey | finite sweep, and induction over sequences of operations |
| C04 | src/key.cc: operator==, operator!=, operator<, operator= | arithmetic over Z |
| C05 | src/pitchclass.cc: PitchClass::PitchClass, initStringToIntMap, getString | as C01, with tolower over all 256 bytes |
| C06 | src/keyprofile.cc: KeyProfile::KeyProfile, getKeyProfileMap, getMajorKeyProfile, getMinorKeyProfile | list lemmas on rotation, for arbitrary arrays |
| C07 | src/keyprofile.cc: KeyProfile::KeyProfile (4 overloads), isValidMajorKeyProfile, isValidMinorKeyProfile, whichMajorKeyProfile | map lookup lemmas |
| C08 | src/keyprofile.cc: getMajorKeyProfile, getMinorKeyProfile, isValidMajorKeyProfile, isValidMinorKeyProfile | invariant over call sequences with insertion by operator[]; the stronger claim is refuted by a witness |
| C09 | src/keyprofile.cc: initKeyProfileArrays | exact rational values of the stored doubles, computed over finite tables |
| C10 | src/keytransition.cc: KeyTransition::getKeyTransitionMap | rotation lemmas, for arbitrary arrays |
| C11 | src/keytransition.cc: getKeyTransitionMap | rotation lemmas, for arbitrary arrays |
| C12 | src/keytransition.cc: initKeyTransitionArrays, getKeyTransitionMap | rotation lemmas, for arbitrary arrays |
| C13 | src/keytransition.cc: KeyTransition::KeyTransition, initKeyTransitionArrays, getKeyTransitionArray | as C07 and C09 |
| C14 | src/hiddenmarkovmodel.cc: HiddenMarkovModel::runViterbi, getKeySequence | induction over the observations |
| C15 | src/hiddenmarkovmodel.cc: runViterbi | generic dynamic-programming argument that uses only monotonicity of rounded addition, instantiated at binary64 |
| C16 | src/hiddenmarkovmodel.cc: runViterbi, getMaximumProbability, getProbabilityVector | as C15 |
| C17 | src/hiddenmarkovmodel.cc: runViterbi (lines 228-236) | as C15, over all iteration orders |
| C18 | src/hiddenmarkovmodel.cc: runViterbi | error analysis with Flocq against real-valued scores |
| C19 | src/hiddenmarkovmodel.cc: runViterbi (lines 191, 199) | direct evaluation |
| C20 | src/hiddenmarkovmodel.cc: runViterbi (m_keySequence never cleared) | induction on the number of runs; the expectation that runs are repeatable is refuted |
| C21 | src/hiddenmarkovmodel.cc: runViterbi (lines 238-239); src/justkeydding.cc: main (line 151) | as C15 |
| C22 | src/justkeydding.cc: main (190-242); src/hiddenmarkovmodel.cc: runViterbi | positivity of the tables and a saturation argument on rounded addition |
| C23 | src/justkeydding.cc: main (189-242); src/hiddenmarkovmodel.cc: runViterbi; src/keyprofile.cc: getKeyProfileMap; src/keytransition.cc: getKeyTransitionMap | renaming of states; equality of maxima; refutation by a tie |
| C24 | src/justkeydding.cc: main (228-242); src/keytransition.cc: 'zero' array | paths with a zero transition have score minus infinity |
| C25 | src/justkeydding.cc: main (272-283); src/key.cc: getString | sweep over keys |
| C26 | src/justkeydding.cc: main (251-271); dataset.py: compare_keys, weighted_score | sweep over pairs of keys against a musical specification |
| C27 | src/justkeydding.cc: main (252-258); tools/annotate_inline.py | string lemmas on searching and cutting |
| C28 | src/justkeydding.cc: main (73-93) | string lemmas; case folding by a sweep over bytes |
| C29 | src/justkeydding.cc: main (62-73), initOptionParser (301-306) | reading lemmas for lists of numbers |
| C30 | src/justkeydding.cc: main (94-116) | case analysis on the arguments |
| C31 | src/justkeydding.cc: main (124-141) | composition of the parts of main |
| C32 | src/chromagram.cc: getChromagramFromCsv, getChromagramFromAudio; src/midi.cc: Midi::Midi; src/justkeydding.cc: main (155-188) | composition of the parts of main |
| C33 | src/chromagram.cc: getChromagramFromCsv | induction over lines and tokens |
| C34 | src/chromagram.cc: getChromagramFromCsv; include/chromagram.h: ChromagramMap | induction over lines and tokens |
| C35 | src/chromagram.cc: getChromagramFromCsv (stof); src/justkeydding.cc: main (151) | induction over frames |
| C36 | src/chromagram.cc: discretizeChromagram | induction over frames |
| C37 | src/chromagram.cc: getPitchClassSequence (line 50) | induction over frames |
| C38 | src/chromagram.cc: getPitchClassSequence | induction over frames |
| C39 | src/chromagram.cc: getPitchClassSequence (lines 55-60) | induction over frames |
| C40 | src/chromagram.cc: printOriginalChromagram, getChromagramFromCsv | printing and reading lemmas composed |
| C41 | src/midi.cc: Midi::getPitchClassSequence | induction over events |
| C42 | src/chromagram.cc: getChromagramFromAudio (178-203) | induction over blocks of samples |
| C43 | src/chromagram.cc: getChromagramFromCsv (stof); src/justkeydding.cc: stringToDoubleArray | stream extraction against a grammar of decimal numerals, induction over characters |
| C44 | src/chromagram.cc: printOriginalChromagram | digit generation against nearest-even rounding of rationals, and uniqueness of the printed numeral |
| C45 | src/keyprofile.cc: 66-133; src/hiddenmarkovmodel.cc: emission probabilities | exact comparison with published numbers |
| C46 | include/key.h: 95-101; src/key.cc: 45-101 | sweep over key signatures |
| C47 | src/keytransition.cc: 52-88 | sweep over pairs and triples of keys |
| C48 | dataset.py: compare_keys (77-99); src/justkeydding.cc: 259-268 | sweep over pairs of keys, and transposition |
| C49 | dataset.py: weighted_score (101-116) | error analysis of rounded sums of counts |
| C50 | dataset.py: transpose (62-74), data_augmentation (118-128) | list lemmas on rotation of blocks |
| C51 | dataset_creator.py: 48-81, parse_label (148-161); tools/annotate_inline.py: 5-82; src/justkeydding.cc: ground truth | string lemmas on splitting into words, for all texts |
| C52 | src/ViterbiSTL.cc: forward_viterbi (126-192), main (196-215) | generic dynamic-programming argument over any number type, instantiated at the reals and at binary64; total by exchanging sums |
| C53 | nnls-chroma-1.1/viterbi.cpp: ViterbiPath (5-84); nnls-chroma-1.1/Chordino.cpp: 531-552 | generic induction over frames, instantiated at the reals and at binary64; signed-zero and NaN case analysis for the first chord |
| C54 | optimizer/key_profiles.py: get_as_string (171-177); optimizer/key_transitions.py: get_as_string (143-149); src/justkeydding.cc: option handling, stringToDoubleArray | format arithmetic on exact values, then the reading theorem of C43 and the table selection of the option model |
| C55 | optimizer/key_profiles.py: 1-170 (mix 127-140, insert_new 142-150); optimizer/key_transitions.py: 1-120; src/keyprofile.cc: 66-133; src/keytransition.cc: 52-88 | boolean comparison of the two sets of constants lifted to equality; association-list lemmas; rounding bounds around 0.99 |
| C56 | optimizer/generator.py: 6-147 | the nested loops are flattened to one plan of draws with an induction over it; a relation for closeness within k roundings that composes over sums, products and quotients |
| C57 | optimizer/evolver.py: 15-87; optimizer/key_profiles.py: 142-170 | an invariant on names and counters, a specification of each step (choosing, crossing, mutating, generating) and their composition; the rounded shares of the population are computed exactly |
| C58 | optimizer/evolver.py: 89-149; optimizer/key_transitions.py: 96-141 | an invariant on names, ratios and counters, a rounding analysis of the new ratio, a specification of each step and their composition; the failure of the built-in tables by a general theorem on missing ratios and a run |
| C59 | optimizer/evaluator.py: 34-68 | real-number analysis of each rounded operation and induction over the files |
| C60 | ga.py: 45-174; optimizer/evaluator.py: 18-44; optimizer/key_profiles.py: 152-158; optimizer/key_transitions.py: 112-119 | an invariant on both dictionaries, the populations and the recorded pair, preserved by each generation and by induction over their number; the refutation by a run with two profiles |
| C61 | optimizer/ensembler.py: 66-73; src/justkeydding.cc: 243-250 | the specification of numerals of C30 extended to whole texts, both directions; error bounds from the decimal and the binary rounding; the refutation by two close scores |
| C62 | optimizer/ensembler.py: 9-73; justkeydding_ensemble.py: 28-44; optimizer/key_profiles.py: 127-138 | composition of the theorems on tables, decoder and output; finiteness by induction over the notes; distinct mixture names by a sweep over all stored names; refutation by four names |
| C63 | optimizer/evaluator.py: 46-68; src/justkeydding.cc: 251-271 | case analysis of main; the first two letters of every message exclude a number; the five texts through the specification of numerals |
| C64 | dataset.py: 130-136; justkeydding_ensemble.py: 45-47 | relative error bounds of each rounded operation in real arithmetic; monotonicity of rounding; the refutation by the row -60, -47, ..., -47 |
| C65 | justkeydding_ensemble.py: 8-53; optimizer/ensembler.py: 69-72; dataset.py: 130-136 | sweep over the 24 keys; the refused runs by the theorems on main; exact computation of the scaled failure row |
| C66 | dataset_creator.py: 83-189; optimizer/ensembler.py: 41-49 | loop invariant that the shared ensemble equals a fresh one after its first use; dictionaries as lists with distinct names; the specification of lines, words and labels |
| C67 | dataset_creator.py: 191-244; dataset.py: 8-59 | the greedy regular expressions on every name; permutations of the folder; distinctness of all names that are written |
| C68 | model_trainer.py: 11-56; dataset.py: 8-75, 118-136; justkeydding_ensemble.py: 8-51 | permutation invariance of the minimum and maximum up to the sign of zero; blocks of 24 in the flattened array; induction on the datasets |
| C69 | nnls-chroma-1.1/nnls.c: 16-580 | the comparisons are used through seven laws that hold for floats with NaN and for reals; a well-formedness invariant at every label; a lexicographic rank that falls with each jump |
| C70 | nnls-chroma-1.1/nnls.c: 16-580 | the matrix and b are at all times an orthogonal transform of the given ones (Householder reflections and Givens rotations preserve the Gram matrix), triangular on the set P; x solves the triangular system at L30, the gradient is 0 on P, and at the end at most 0 outside; then the Karush-Kuhn-Tucker conditions give optimality |
| C71 | nnls-chroma-1.1/nnls.c: 411-535; nnls-chroma-1.1/NNLSChroma.cpp: 396-403 | the ratio of a finite, non-negative x and a z that is at most 0 is rounded to at most 1, so that alpha is never left at 2; sign invariant over all steps; the witness by computation |
| C72 | nnls-chroma-1.1/NNLSBase.cpp: 384-533; nnls-chroma-1.1/NNLSChroma.cpp: 203-481; nnls-chroma-1.1/chromamethods.cpp: 46-73 | invariant over the frames: three tunings, tuning angles of at most half a turn or not-a-number, spectra of 256 values that are not negative; magnitude bounds for clean sound; not-a-number followed through energy, kernel, running means, atan2 and the conversion |
| C73 | nnls-chroma-1.1/NNLSChroma.cpp: 257-299, 359-370; nnls-chroma-1.1/NNLSBase.cpp: 442-533 | signs of rounded sums, products, quotients and roots in single and double precision; the fractional shift is between 0 and 1 after rounding |
| C74 | nnls-chroma-1.1/NNLSChroma.cpp: 319-410; nnls-chroma-1.1/chromamethods.h: 25-36 | a sum that starts at +0 is never -0, so adding +0 does not change it; invariant over the semitones |
| C75 | nnls-chroma-1.1/NNLSChroma.cpp: 371-407 | the call of nnls() has the right columns in the right places; C70 |
| C76 | nnls-chroma-1.1/NNLSChroma.cpp: 413-469 | the maximum is one of the values; a rounded sum of values that are not negative is at least as large as each of them; a rounded quotient of at most 1 is at most 1 |
| C77 | nnls-chroma-1.1/NNLSBase.cpp: 442-533 | invariants of the loops over bins, kernel entries and semitones against a bin-by-bin specification |
| C78 | nnls-chroma-1.1/NNLSBase.cpp: 484-520; nnls-chroma-1.1/NNLSChroma.cpp: 203-289 | the state after n frames in closed form by induction; the loops over frames and bins; rounding of the fractional shift |
| C79 | nnls-chroma-1.1/NNLSChroma.cpp: 276-299; nnls-chroma-1.1/chromamethods.cpp: 46-73 | loop invariants against a bin-by-bin specification |
| C80 | nnls-chroma-1.1/NNLSBase.cpp: 442-533; nnls-chroma-1.1/NNLSChroma.cpp: 203-481 | C77 and C78; products of zero with finite shifts; normalisation leaves zeros alone |
| C81 | src/justkeydding.cc: 38-285 | composition of C15, C16, C22 and C24 with the reading of options and files; scores restated from the tables alone |
| C82 | nnls-chroma-1.1/NNLSChroma.cpp: 211-486; nnls-chroma-1.1/NNLSBase.cpp: 442-533; src/chromagram.cc: ChromagramFromAudio | composition of the theorems about the plug-in with those about the reader of chromagrams |
| C83 | nnls-chroma-1.1/viterbi.cpp: ViterbiPath (5-84); nnls-chroma-1.1/Chordino.cpp: 537-547 | loop invariants over a memory with indeterminate cells, refinement to Viterbi's algorithm on lists |
| C84 | nnls-chroma-1.1/viterbi.cpp: ViterbiPath (18-81) | induction over the frames with the product of the factors as invariant, splitting the way back at the frame without paths |
| C85 | nnls-chroma-1.1/chromamethods.cpp: chordDictionary (272-535); nnls-chroma-1.1/chromamethods.h: 28 | loop invariants over types and semitones; the tables by computation |
| C86 | nnls-chroma-1.1/Chordino.cpp: 527-622 | invariants of the loops over the path, on top of C83 |
| C87 | nnls-chroma-1.1/Chordino.cpp: getRemainingFeatures (270-622) | composition of the theorems about the chroma plug-in, the dictionary and the decoder |
| C88 | nnls-chroma-1.1/viterbi.cpp: ViterbiPath (8-124); nnls-chroma-1.1/Chordino.cpp: getRemainingFeatures (385-572) | relative error bounds of single roundings, an invariant for the size of the rows, induction over the frames |
| C89 | nnls-chroma-1.1/chromamethods.cpp: cospuls (74-81), dictionaryMatrix (168-207); nnls-chroma-1.1/NNLSChroma.cpp: 371-407 | induction over the loops in an arbitrary arithmetic, triangular shape of the dictionary, optimality of nnls (C70, C75) |
| C90 | nnls-chroma-1.1/NNLSBase.cpp: constructor (31-61), setParameter (267-323), initialise (351-423); nnls-chroma-1.1/chromamethods.cpp: pitchCospuls (83-95), logFreqMatrix (101-166), dictionaryMatrix (168-207) | loop invariants over the matrix, bounds between powers of two for every rounding, invariants over the parameter calls |
| C91 | nnls-chroma-1.1/NNLSBase.cpp: initialise (351-423); nnls-chroma-1.1/chromamethods.cpp: SpecialConvolution (46-73) | induction over the calls |
| C92 | nnls-chroma-1.1/NNLSBase.cpp: 31-61, 135-323; nnls-chroma-1.1/Chordino.cpp: 67-160; nnls-chroma-1.1/Tuning.cpp: 71-91 | case analysis over the names, computation of the declared bounds |
| C93 | nnls-chroma-1.1/Tuning.cpp: 93-215; nnls-chroma-1.1/NNLSBase.cpp: 442-530 | induction over the blocks, error analysis of the rounded operations, 2^(1/24) bounded by its 24th power, refutation by a computed block |
| C94 | nnls-chroma-1.1/chromamethods.cpp: 344-345, 396-438, 440-486; nnls-chroma-1.1/chord.dictold: 1-31 | induction over tokens, lines and entries: reading is a left inverse of writing |
| C95 | nnls-chroma-1.1/Chordino.cpp: 240-251, 277, 494-500, 552-575; nnls-chroma-1.1/chromamethods.cpp: 478, 492, 527-535 | induction over the calls; refutation with two calls |
| C96 | nnls-chroma-1.1/chromamethods.cpp: 210-268, 372-394 | induction over texts: no occurrence of $HOME can straddle a separator; an invariant of the endless loop |
| C97 | tools/shorten_names.sh: 1-23 | invariants of a list of moves in a folder; injectivity of decimal numerals; two features with one stem refute that annotations always follow |
| C98 | tools/billboard/bothchroma2chroma.py: 1-22; tools/cross-era/remove_column.py: 1-22; src/chromagram.cc: 105-136 | splitting inverts joining, by induction; then C33 |
| C99 | tools/billboard/filter_confident_files.py: 1-16; tools/giantsteps-mtg-key-dataset/filter_confident_files.py: 1-16; tools/experiment1/find_duplicates.py: 1-21; src/midi.cc: 39-55 | invariant over the prefixes of the listing; witness with two dots |
| C100 | tools/sample_datapoints.py: 1-22; dataset_creator.py: 134-143 | bounds of the rounded product; permutation argument; witness with equal stems |
| C101 | tools/albrecht/extract_keys.py: 1-22; dataset_creator.py: 163-189 | induction over the listing; the search for the key is related to the text it matches |
| C102 | model_tester.py: 1-22; model_trainer.py: 13-59; dataset.py: 62-74, 118-136 | the row transposed by nothing is the row, and scaling works row by row; a classifier that looks answers up |
| C103 | nnls-chroma-1.1/NNLSChroma.cpp: 31-35, 63-183, 208-217, 297, 471-474; src/chromagram.cc: 163-211; nnls-chroma-1.1/chromaextract.cpp: 87-137 | reading back a number from a map after pushes; the four lists of features grow together; induction over the frames |
| C104 | nnls-chroma-1.1/Chordino.cpp: 162-266, 549-622; nnls-chroma-1.1/chordextract.cpp: 85-142 | the notes of every chord of the dictionary (C85), the path of the decoder and its spans (C86, C87); reading back from a map after pushes |

## Simplifications

Each is also stated in a comment at the definition concerned.

* Copying an indeterminate value is harmless; *using* it is `Undef`.
* Library semantics are those of glibc and libstdc++ where the standards leave a choice. The sign of NaN is not tracked.
* Hexadecimal floating-point notation is excluded from the specification of numerals. Overflow of the column counter of the CSV reader is
  not modelled. Sizes and counts of the plug-in are assumed to fit an `int`.
* Python: `sum` adds left to right (before Python 3.12), `str` is restricted to code points below 256, underscores in `float()` are not
  modelled, numpy arrays are lists, and `data_augmentation` is modelled for two-dimensional input.
* `ViterbiPath`: the caller's buffer `delta` is one list per frame. A transition row that is too short counts as read past its end even
  when the observations would keep the program from reaching it; no theorem claims undefined behaviour for that case. No states at all
  counts as undefined.
* `optimizer/`: log output is left out. A dictionary is an association list in insertion order. A random source is a list of whole numbers,
  one per draw; `randrange(n)` and `choice` take the draw modulo the length, `random()` is 53 bits over 2^53. The power function is a parameter.
  Whole-number ratios are held as doubles, as they are only ever used in float arithmetic.
* `optimizer/evaluator.py`, `ga.py`: what the detector prints for two tables and a file is a function of them (a parameter), so runs of the
  program are taken to be repeatable. The thread pool is left out, as its `map` keeps the order. `sorted` is specified only for keys that are
  not NaN. The population size, which only leads to a warning, and the log are left out. The `while` loop is run for at most n generations.
* `optimizer/ensembler.py`, `justkeydding_ensemble.py`: the thread pool and the log are left out; `grade_key_profiles` and `grade_key_transitions`,
  which nobody calls, are not modelled. The classifier is a parameter. `MinMaxScaler` is written down as of scikit-learn 0.20 (2019), from
  memory of its source, and refuses NaN (the real one passes it on). A process that ends with an exception has written nothing.
* `dataset_creator.py`, class `Dataset`, `model_trainer.py`: the log is left out, and so is the name `unknown_dataset`, which is overwritten
  at once. A folder is a list of names and contents. Texts are strings of code points below 256. A regular expression with `IGNORECASE`
  compares lower-case letters. `np.load` of a text and `open` of an array count as a ValueError. `os.path.join` is modelled for second
  parts without a leading slash. The classifier and its training are left out.
* `nnls.c`: the arithmetic is a parameter, with two instances: `single` for a compiler that evaluates `float` expressions in single and
  `double` sub-expressions in double precision (`FLT_EVAL_METHOD` 0), and `exact` for real numbers. Jumps are steps between six labels.
  An array is a size and a function; the pointers shifted by one, as `f2c` leaves them, are not modelled (C does not allow them), nor is
  overflow of `int` index expressions.
* The chroma plug-in (`NNLSBase.cpp`, `NNLSChroma.cpp`): in `Plug.v` the dictionary, the kernel, the Hamming window and the sine and cosine
  tables are inputs of the right shape; `Setup.v` computes them, and C90 proves that they have it. Overflow of the frame count, the text with
  the estimated tuning, which nobody reads, and the debug messages are left out. `FLT_EVAL_METHOD` is 0. `pow(x, 2)` is the rounded square.
* `Setup.v`: the note dictionary is computed in an arithmetic with two kinds of numbers, `machine` for floats and doubles and `ideal` for real
  numbers. Sizes are taken to fit an `int`. The frequencies `cq_f` of `dictionaryMatrix`, which are not used, are left out. The assertion of
  `SpecialConvolution` is a separate predicate. The parts of the object that `Plug.v` has (frame count, spectra, local tunings) are not repeated.
* `ViterbiPath` a second time (`ChordViterbi.v`): here `delta` is the flat buffer of the caller with indeterminate cells, and the arithmetic is
  a parameter. The index products are taken not to overflow an `int`.
* C82 puts the plug-in and the detector together: the features the plug-in returns are handed over as they are. The host between them, which
  splits the file into blocks, transforms them and prints the features, is not modelled.
* `Chordino` (`Chords.v`): `getRemainingFeatures` from the tuning to the transcription. Times are exact numbers of nanoseconds instead of
  pairs of seconds and nanoseconds. The chord types are an input; `Search.v` and `Dict.v` have the search for the file `chord.dict` and the reading of it. `pow` and
  `log` for doubles and `pow` for floats are arbitrary functions; `pow(x, 2.0f)` is the rounded square. The unused list of chroma vectors is
  computed only as far as it can fail. The older model of the decoder (C53) has only lines 531-547 and arbitrary saliences.

## Trusted base

1. The kernel of Coq 8.16.1 (and, for the gate, `coqchk`). `vm_compute` is used.
2. The axioms listed at the end. No axiom, parameter or unfinished proof is added by this development.
3. The reading of `/repo`: that each definition means what the cited lines mean. The code was read as text. Nothing was built or run, so
   the model has **not** been compared with the behaviour of the compiled program.
4. External functions, which are parameters or inputs of the model:
   * `log10` of the C library, with the contract `log10_ok` (and `log10_accurate` for C18);
   * the power function of the C library, with the contracts `accurate_power` (C56, C58, C60) and `fair_squares` (C59, C60);
   * `atan2` for floats, with the contract `atan2_law` (C72-C74): not-a-number exactly if an argument is, otherwise finite and at most the
     float next to pi; `pow` for floats, of which only the sign of a power of a positive number is used;
   * `cos`, `sin`, `log`, `log2`, `pow`, `log2f` and `powf` in `initialise`, with the contract `libm_law` (C90): sine and cosine of finite numbers are
     finite and between -1 and 1, cos 0 is 1, log 2 is between 1/2 and 1, log2 1 is 0, a number from 0 to 1 to a power of at least 0 is between 0
     and 1 and to the power 0 it is 1; nothing is asked of `pow`, `log2f` and the other values of `log` and `log2`;
   * `pow` for doubles in `Chordino`, with the contract `pow_law` in `C88_chords_nearly_most_probable` only (1.3 to a power from 0 to 200 is between 1 and 2^80);
   * `pow` for doubles in `Tuning`, with the contract `pow2_law` (C93): 2 to a power of at most 1/20 in size is right but for one part in 2^50; and for
     the refutation in C93 also `atan2_pi`: the angle of +0 and a negative number is the float next to pi;
   * `boost::lexical_cast<float>` (C94), an arbitrary function that may throw; C94_shipped_file asks that it reads `0` and `1`. `boost::tokenizer` is modelled;
   * the file system and the environment of the search for `chord.dict` (C96): `getenv` gives a text or nothing, and a file can be opened exactly if it has a text;
   * the words of `$(ls ...)` and the folders of `tools/shorten_names.sh` (C97): names without white space, slashes and wildcards; `cp` fails exactly if there is no such file or it is copied onto itself;
   * the classifier of `model_tester.py` (C102), an arbitrary function from rows to labels; its `score` is the rounded share of right answers;
   * the rows that `codecs` and `csv.reader` make of the text of a kern file (C101), an arbitrary function;
   * `csv.reader` for texts without quotation marks and null characters (C98), the messages that mido gives for the bytes of an event (C99), and the places that `random.sample` draws (C100);
   * the detector as called by the optimizer, with the contract `fair_scores` (C59, C60; C63 proves it for the detector of this model);
   * the iteration order of `std::unordered_map` (any permutation);
   * the option parser, the MIDI file reader, libsndfile and the adapters of the Vamp host SDK, whose results are inputs; the adapters are taken to hand on feature sets as they are (C103);
   * the classifier of `justkeydding_ensemble.py`, an arbitrary function;
   * the file system: file contents are inputs.
5. Independent data in `DataSpec.v`: the published key-profile numbers of C45 were written down from memory of the literature and with the
   stored tables at hand, since there is no network. They have not been checked against the publications, so C45 is evidence that the stored
   quotients are consistent with these ratings, not that the ratings are right.

## What is modelled and what is not

Modelled: `src/key.cc`, `src/pitchclass.cc`, `src/keyprofile.cc`, `src/keytransition.cc`, `src/hiddenmarkovmodel.cc`, `src/chromagram.cc`
(without the Vamp host), `src/midi.cc` (without the file reader), `src/justkeydding.cc`, `src/ViterbiSTL.cc`, `dataset.py`,
`dataset_creator.py`, `model_trainer.py` up to the call of the classifier, `tools/annotate_inline.py`, `optimizer/key_profiles.py`,
`optimizer/key_transitions.py`, the generators, the evolvers and the evaluator of `optimizer/`, `ga.py`, `optimizer/ensembler.py`,
`justkeydding_ensemble.py`, `nnls-chroma-1.1/viterbi.cpp`, `nnls-chroma-1.1/nnls.c`,
`nnls-chroma-1.1/NNLSChroma.cpp` (`process` and `getRemainingFeatures`), `nnls-chroma-1.1/NNLSBase.cpp` (the constructor, the parameters,
`initialise`, `reset`, `baseProcess`), `chromamethods.cpp` (`SpecialConvolution`, `cospuls`, `pitchCospuls`, `logFreqMatrix`, `dictionaryMatrix`,
`getPluginPath` on Linux, `chordDictionary`), the windows of `chromamethods.h`, `getRemainingFeatures` of `nnls-chroma-1.1/Chordino.cpp`, and `nnls-chroma-1.1/Tuning.cpp` (`process` and `getRemainingFeatures`, without the label), `Chordino::initialise`, the text of `chord.dictold`, `tools/shorten_names.sh`, `tools/sample_datapoints.py`, `tools/billboard/*.py`, `tools/cross-era/remove_column.py`, `tools/giantsteps-mtg-key-dataset/filter_confident_files.py` and `tools/experiment1/find_duplicates.py`, `tools/albrecht/extract_keys.py`, `model_tester.py`, and `getOutputDescriptors` of `nnls-chroma-1.1/NNLSChroma.cpp` (identifiers, sizes, names and numbers) with the search for an output in `src/chromagram.cc` and `nnls-chroma-1.1/chromaextract.cpp`; the same for `nnls-chroma-1.1/Chordino.cpp` (identifiers, sizes, extents and numbers) and `nnls-chroma-1.1/chordextract.cpp`.

Not modelled: the rest of `nnls-chroma-1.1` (the rest of `Chordino.cpp`, names and descriptions of the plug-ins),
the other Python and shell scripts, the tests, the build files and the data sets.

## Mutation testing

`seeded/LOG.jsonl` has one line per attempt. A definition is edited in a scratch copy, everything that depends on it is rebuilt, proofs that fail are
admitted *in the scratch copy only*, and the property theorems that then depend on an admitted lemma are listed. A failing proof shows
that the theorem notices the edit; it does not by itself show that the statement has become false.

### Axioms per theorem

As printed by `Print Assumptions` below each theorem. All are axioms of the standard library (`Coq.Logic`, `Coq.Reals`).

**None (closed under the global context)** (111 theorems):
`C01_key_names`, `C02_key_name_roundtrip`, `C02_key_names_distinct`, `C02_spelling_kept`, `C02_all_keys`, `C03_relative`, `C03_parallel`, `C03_dominant_subdominant`, `C03_circle_of_fifths`, `C03_circle_complete`, `C03_operations_closed`, `C03_operations_connect`, `C03_unset_key`, `C04_trichotomy`, `C04_equivalence_and_order`, `C04_enharmonic`, `C04_assignment`, `C04_unset`, `C05_pitchclass_names`, `C05_pitchclass_roundtrip`, `C05_case_insensitive`, `C06_shape`, `C10_entry`, `C10_transpose`, `C10_shape`, `C11_rows`, `C11_columns`, `C12_characterisation`, `C12_relative_parallel_swapped`, `C25_label_names_the_key`, `C25_labels_differ`, `C26_full_credit_only_when_right`, `C26_subdominant_gets_nothing`, `C27_truth_between_underscore_and_dot`, `C27_underscore_after_dot`, `C28_extension_decides`, `C28_kind_is_unique`, `C28_every_name`, `C30_message_names_the_count`, `C37_always_undefined`, `C38_kept_frames_exist`, `C41_collected_notes`, `C41_every_file_has_notes`, `C41_never_returned`, `C46_name_has_fewest_accidentals`, `C46_signature_of_the_name`, `C46_every_name_has_fewest_accidentals_refuted`, `C47_every_pair_is_in_one_class`, `C48_judgement`, `C48_judgement_is_symmetric`, `C48_judgement_of_transposed_keys`, `C48_same_credit_as_the_detector`, `C48_same_credit_for_all_pairs_refuted`, `C48_unknown_label`, `C48_unknown_label_gets_no_credit_refuted`, `C50_transpose`, `C50_augmentation`, `C50_ragged_features`, `C50_unknown_label_stays_unknown_refuted`, `C51_every_text_has_its_words`, `C51_label`, `C51_unknown_label`, `C51_label_means_the_same_to_the_detector`, `C51_names_only_the_detector_knows`, `C51_normalised_label`, `C51_annotated_file_name`, `C61_words`, `C65_names_the_key`, `C65_names_differ`, `C65_same_label_as_the_detector`, `C65_same_label_refuted`, `C66_accepts_music`, `C66_refuses_other_files`, `C66_name`, `C66_splits`, `C67_tables_come_back`, `C67_mixed_comes_back_refuted`, `C67_stored_dataset`, `C68_datasets_in_one_folder`, `C68_names_of_the_trainer`, `C68_unknown_label`, `C72_kernel_is_the_positive_part`, `C83_decoder_runs_viterbi`, `C83_nothing_to_decode`, `C85_names_of_notes`, `C94_written_is_read`, `C94_last_line`, `C94_name_alone_is_undefined`, `C96_given_path`, `C96_default_path`, `C96_no_home`, `C96_ends_unless_home_names_itself`, `C97_numbers`, `C97_pairs_are_kept`, `C97_file_is_lost`, `C97_again_deletes_everything`, `C97_second_run_deletes_everything`, `C97_shared_annotation_refuted`, `C98_first_column_is_removed`, `C99_kept_features`, `C99_kept_features_have_annotations`, `C99_kept_means_annotated_refuted`, `C99_first_of_each`, `C99_duplicates_sound_alike`, `C100_names_are_stems`, `C100_list_is_read`, `C101_keys_are_printed`, `C101_blank_line_fails`, `C101_nothing_is_written`, `C101_key_is_written_refuted`, `C103_names_are_right`

**`ClassicalDedekindReals.sig_forall_dec`, `FunctionalExtensionality.functional_extensionality_dep`** (11 theorems):
`C37_end_is_dereferenced`, `C38_notes_of_kept_frames`, `C39_negative_overflows`, `C39_negative_is_always_undefined`, `C52_total_is_the_sum_over_all_paths`, `C52_path_is_heaviest`, `C53_path_is_heaviest`, `C84_most_probable_path`, `C84_a_frame_without_paths`, `C84_decoder_finds_the_path`, `C84_decoder_restarts`

**`ClassicalDedekindReals.sig_forall_dec`, `ClassicalDedekindReals.sig_not_dec`, `FunctionalExtensionality.functional_extensionality_dep`** (2 theorems):
`C70_solves_the_problem`, `C75_transcription_is_best`

**`ClassicalDedekindReals.sig_forall_dec`, `ClassicalDedekindReals.sig_not_dec`, `Classical_Prop.classic`, `FunctionalExtensionality.functional_extensionality_dep`** (310 theorems):
`C06_emission`, `C06_row_permutation`, `C06_transposition`, `C07_unknown_name`, `C07_known_names`, `C08_stable`, `C08_unknown_becomes_valid`, `C08_validity_stable_refuted`, `C09_profiles_are_distributions`, `C09_no_dead_pitch_class`, `C12_builtin_reversible`, `C13_builtin_distributions`, `C13_heatmap_no_distribution`, `C13_names`, `C14_one_key_per_observation`, `C15_optimal`, `C16_maximum_is_path_score`, `C16_vector`, `C17_order_independent`, `C17_every_tied_state_possible`, `C18_nearly_most_probable`, `C19_no_observations`, `C20_runs_accumulate`, `C20_rerun_same_keys_refuted`, `C21_outcomes`, `C21_completes_iff`, `C22_always_a_key`, `C22_custom_tables`, `C23_scores_transpose`, `C23_key_follows_without_ties`, `C23_single_note_tie`, `C23_key_follows_refuted`, `C24_one_global_key`, `C26_score_is_the_credit`, `C26_credit_is_unique`, `C27_no_marker_prints_nothing`, `C27_not_a_key_name_is_undefined`, `C28_unknown_extension_helps`, `C28_no_dot_throws`, `C29_format_option_undefined`, `C29_format_option_never_gives_a_key`, `C30_exactly_24_accepted`, `C30_other_counts_print_help`, `C30_numbers_exist_uniquely`, `C30_tables_used`, `C30_values_used`, `C31_exactly_24_accepted`, `C31_fewer_print_help`, `C31_more_write_out_of_bounds`, `C31_tables_used`, `C31_values_used`, `C31_both_custom`, `C32_missing_csv`, `C32_missing_audio`, `C32_midi_verdict_ignored`, `C32_midi_never_reports`, `C32_exit_codes`, `C33_csv_is_shown`, `C33_shown_only_one_way`, `C33_audio_is_shown`, `C34_line_order_irrelevant`, `C34_any_source_line_order_irrelevant`, `C35_not_a_number_throws`, `C35_out_of_range_throws`, `C35_never_read`, `C35_main_throws`, `C36_values_are_floored`, `C36_audio_values_are_floored`, `C36_whole_values_stay`, `C37_csv_run_is_undefined`, `C37_audio_run_is_undefined`, `C38_repeated_frame_is_nothing`, `C40_dump_of_a_file`, `C40_dump_can_be_read_back`, `C40_equal_looking_times_are_merged`, `C40_values_read_back`, `C40_every_dump_can_be_read_refuted`, `C40_same_notes_refuted`, `C40_every_frame_kept_refuted`, `C41_midi_run_is_undefined`, `C42_blocks_are_mono_and_padding`, `C42_one_channel_exact`, `C42_two_equal_channels_exact`, `C42_average_up_to_rounding`, `C42_equal_channels_exact_refuted`, `C43_stof_is_the_nearest_float`, `C43_stof_throws`, `C43_token_has_one_value`, `C43_stream_reads_the_nearest_double`, `C43_both_readers_accept_the_same_refuted`, `C44_text_of_a_number`, `C44_text_exists_uniquely`, `C44_text_is_close`, `C44_order_is_kept`, `C44_different_numbers_look_different_refuted`, `C45_profiles_are_the_published_ratings`, `C45_no_other_profile_is_stored`, `C47_weight_of_each_class`, `C47_nearer_keys_are_likelier`, `C47_nearer_within_three_steps_refuted`, `C49_score`, `C49_different_lengths`, `C49_no_predictions`, `C51_unknown_annotation`, `C52_path_is_heaviest_in_doubles`, `C52_printed_output`, `C53_one_state_per_frame`, `C53_path_is_heaviest_in_doubles`, `C53_short_input_is_undefined`, `C53_first_chord_is_no_chord`, `C54_text_of_a_number`, `C54_tables_reach_the_detector`, `C54_small_loss`, `C54_order_kept`, `C54_small_values_vanish`, `C54_exact_values_refuted`, `C54_unknown_profile`, `C54_unknown_transition`, `C55_same_major_profiles`, `C55_same_minor_profiles`, `C55_same_transitions`, `C55_stored_tables`, `C55_mixture`, `C55_no_mixture`, `C55_warning_when_too_small`, `C55_no_warning_from_99_percent`, `C55_every_bad_sum_reported_refuted`, `C56_major_profile`, `C56_minor_profile`, `C56_stochastic_transition`, `C56_every_major_possible`, `C56_every_minor_possible`, `C56_every_transition_possible`, `C56_small_maximum_major`, `C56_small_maximum_minor`, `C56_small_maximum_transition`, `C56_sum_is_one`, `C56_remotest_key`, `C56_geometric_accurate`, `C56_geometric_sum`, `C56_geometric_classes`, `C56_geometric_order`, `C56_new_profile`, `C56_new_stochastic`, `C56_new_geometric`, `C56_always_succeeds_refuted`, `C57_next_generation`, `C57_built_in_profiles`, `C57_no_number_taken`, `C57_mutation`, `C57_four_profiles_raise`, `C57_best_survives_refuted`, `C58_next_generation`, `C58_mutation`, `C58_fewer_than_five`, `C58_no_number_taken`, `C58_without_ratio_raises`, `C58_built_in_without_ratio`, `C58_built_in_evolve_refuted`, `C59_error_of_a_file`, `C59_error_of_all_files`, `C59_fair_comparison`, `C59_squares`, `C60_sorted`, `C60_initial_tables`, `C60_no_profiles_raise`, `C60_profile_generation`, `C60_transition_generation`, `C60_lowest_error_never_rises`, `C60_whole_run`, `C60_only_division_by_zero`, `C60_shipped_configuration`, `C60_best_of_the_population_refuted`, `C61_float_reads_numbers`, `C61_float_refuses_the_rest`, `C61_printed_scores_become_features`, `C61_order_is_kept`, `C61_features_are_close`, `C61_any_other_output_fails`, `C61_strict_order_refuted`, `C62_features_of_a_run`, `C62_stored_tables`, `C62_rows_of_an_ensemble`, `C62_shipped_ensemble`, `C62_notes_of_a_midi_file`, `C62_notes_of_a_chromagram`, `C62_mixtures_under_their_names_refuted`, `C62_later_calls_ignore_the_flag`, `C63_every_score`, `C63_scores_are_fair`, `C63_score_of_a_run`, `C63_full_score`, `C63_no_score_without_a_key_in_the_name`, `C64_scaled_row`, `C64_infinite_features_are_refused`, `C64_each_row_on_its_own`, `C64_only_whole_rows`, `C64_within_the_range_refuted`, `C65_refused_files_all_get_one_answer`, `C65_answer_for_a_file`, `C66_rows_and_labels`, `C66_one_row_per_name`, `C66_missing_annotation`, `C66_one_row_per_file_refuted`, `C67_stale_labels_refuted`, `C67_order_of_files_refuted`, `C68_training_data`, `C68_scaling_after_transposing`, `C68_other_tables`, `C68_every_class_is_a_key_refuted`, `C69_always_ends`, `C69_empty_problem`, `C69_short_arrays_undefined`, `C71_not_negative_without_overflow`, `C71_never_negative_refuted`, `C72_one_feature_per_frame`, `C72_clean_sound_returns`, `C72_one_bad_sample_is_undefined`, `C73_tuned_spectra_not_negative`, `C73_outputs_not_negative_without_nnls`, `C74_semitones_of_the_spectrum`, `C74_chroma_sums_the_octaves`, `C74_windows`, `C76_largest_becomes_one`, `C76_sum_gives_unit_values`, `C76_any_setting_keeps_lengths_and_signs`, `C77_process`, `C78_tuned_spectra`, `C78_at_most_half_a_turn`, `C79_running_mean`, `C79_whitened`, `C80_silence_in_silence_out`, `C81_stored_tables`, `C81_chosen_tables`, `C81_midi_file`, `C81_bad_options`, `C82_sound_to_chromagram`, `C82_silence_is_stored_as_zeros`, `C83_the_check_protects_refuted`, `C85_every_type_on_every_root`, `C85_short_table`, `C85_range_of_notes`, `C85_tables_of_the_program`, `C85_names_are_distinct_refuted`, `C85_notes_are_distinct_refuted`, `C85_transposed_values_refuted`, `C86_transcription_follows_the_path`, `C86_first_and_last_event`, `C86_notes_end_in_time`, `C86_neighbours_have_different_names_refuted`, `C86_every_note_lasts_refuted`, `C87_saliences`, `C87_whole_run`, `C88_nearly_most_probable`, `C88_exactly_most_probable_refuted`, `C88_chords_nearly_most_probable`, `C89_dictionary_holds_sounds`, `C89_sound_of_a_semitone`, `C89_mixtures_differ`, `C89_notes_are_found`, `C90_initialised_is_ready`, `C90_tables`, `C90_host_gets_results`, `C90_small_blocks_are_undefined`, `C91_assertion_after_n_calls`, `C91_window_grows`, `C91_dictionary_doubles`, `C91_refused_call_changes_nothing_refuted`, `C91_refused_call`, `C92_set_then_get`, `C92_unknown_is_ignored`, `C92_defaults`, `C92_declared_values`, `C92_set_is_got_refuted`, `C93_runs_return`, `C93_pitches_of_the_tunings`, `C93_values`, `C93_concert_pitch`, `C93_half_way_is_above`, `C93_declared_extents_refuted`, `C94_chords_of_a_file`, `C94_shipped_file`, `C94_blank_line_spoils`, `C94_types_keep_to_their_lines_refuted`, `C95_first_call`, `C95_first_values_stay`, `C95_boost_is_ignored`, `C95_parameters_apply_refuted`, `C96_initialise_returns_refuted`, `C96_first_file_counts`, `C98_treble_is_read`, `C98_rest_is_read`, `C100_size`, `C100_parts`, `C100_disjoint_refuted`, `C101_dataset_cannot_be_made`, `C102_tested_rows_are_trained`, `C102_score_is_the_share`, `C102_knowing_by_heart`, `C102_full_score_whatever_is_guessed`, `C103_host_gets_the_output`, `C103_host_gets_the_spectra`, `C103_no_other_output`, `C103_detector_gets_the_treble`, `C103_declared_sizes`, `C103_not_asked_is_undefined`, `C104_what_is_put_out`, `C104_host_gets_the_output`, `C104_failures`, `C104_declared_extents`
