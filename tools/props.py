#!/usr/bin/env python3
"""Source of /verif/properties.jsonl.  Run: python3 tools/props.py > properties.jsonl"""
import json
P = []
def p(title, statement, quantifier, why, anchors):
    P.append(dict(id="C%02d" % (len(P) + 1), title=title, statement=statement,
                  quantifier=quantifier, why_tests_cant=why, anchors=anchors))

# ---------------------------------------------------------------- archive / codec
p("Scalar archive round trip",
  "Writing any sequence of fixed-width values to a writing Archive and committing it gives bytes from which a reading Archive returns exactly the same values in the same order, on little- and on big-endian hosts alike, and AtEnd() is true exactly when all of them have been read.",
  "every sequence of values of the fixed-width integer, bool and floating-point (bit pattern) types, both host byte orders",
  "the set of sequences and bit patterns is infinite / 2^64 per value; a test samples a few",
  ["src/Archive.h:Archive::serialize", "src/Archive.h:Archive::deserialize", "src/Archive.h:Archive::commit", "src/Archive.h:Archive::AtEnd", "src/Archive.h:swap_endian"])
p("Reading never goes past the buffer",
  "A read of a fixed-width value from an Archive with fewer remaining bytes than the value needs is rejected with an exception and consumes nothing; a successful read consumes exactly the width of the value. No sequence of reads ever advances the cursor beyond the end of the buffer.",
  "every byte buffer and every sequence of typed reads",
  "must hold for all hostile buffers and read sequences",
  ["src/Archive.h:Archive::deserialize_impl", "src/Archive.h:Archive::update_buffer_ptr", "src/Archive.h:Archive::get_buffer_ptr"])
p("Archive mode discipline",
  "A writing Archive accepts writes and refuses every read operation; a reading Archive accepts reads and refuses every write and commit. commit() returns exactly the concatenation of everything written, in order.",
  "every history of Archive operations on either kind of Archive",
  "ranges over operation histories",
  ["src/Archive.h:Archive"])
p("Traits serialization round trip for every type",
  "For every supported type (bool, all integer widths, float/double bit patterns, string, array, vector, map, unordered_map, unordered_set, tuple, optional, matrices, nested to any depth) and every value whose containers have fewer than 2^32 elements, deserialize applied to the bytes produced by serialize followed by arbitrary further bytes returns the value and leaves exactly the further bytes.",
  "every type built from the supported constructors, every representable value of it, every suffix",
  "types and values are unboundedly nested",
  ["src/Traits.h:Traits<>::serialize", "src/Traits.h:Traits<>::deserialize"])
p("Durations and time points keep their documented resolution",
  "A system_clock duration survives serialize/deserialize at microsecond resolution and a time_point at one-second resolution: the value read back is the written one rounded toward the coarser unit, and whole-unit values are unchanged.",
  "every duration / time point representable in the clock's 64-bit nanosecond tick count",
  "2^64 values, negative values included",
  ["src/Traits.h:Traits<std::chrono::duration>", "src/Traits.h:Traits<std::chrono::system_clock::time_point>"])
p("Truncated archives are rejected",
  "Removing one or more bytes from the end of the serialized form of any value makes deserialization throw; it never returns a value built from missing bytes.",
  "every supported type, value and proper prefix of its encoding",
  "all cut points of all encodings",
  ["src/Traits.h:Traits<>::deserialize", "src/Archive.h:Archive::deserialize_impl"])
p("Serialization is injective",
  "Two different values of the same type never have the same serialized form, nor is one serialized form a proper prefix of another.",
  "every pair of values of every supported type",
  "pairs of unbounded values",
  ["src/Traits.h:Traits<>::serialize"])
p("Unsupported archive versions are refused",
  "Every transformer that writes a version header refuses, with an exception, to load any archive whose major/minor version differs from the one it writes (1.0), whatever bytes follow.",
  "every byte string, every versioned transformer",
  "all 2^32 - 1 other version pairs and all payloads",
  ["src/Featurizers/*: Transformer(Archive &)", "src/Featurizers/Components/InferenceOnlyFeaturizerImpl.h"])
p("Saved transformers load back to equivalent transformers",
  "Saving a transformer and loading the bytes gives a transformer with the same parameters, hence the same outputs on every later input, and consumes exactly the bytes saved; loading parameters a constructor would refuse throws.",
  "every transformer state a user can construct or train, every later input sequence, every suffix of bytes",
  "infinitely many trained states",
  ["src/Featurizers/*Featurizer.h: save / Transformer(Archive &)"])
# ---------------------------------------------------------------- framework
p("Training life cycle",
  "An estimator moves Pending -> Training -> Finished -> Completed and never backwards; begin_training, fit, on_data_completed and complete_training succeed only in the states documented for them and otherwise throw without changing anything.",
  "every sequence of API calls, every behaviour of the concrete estimator",
  "ranges over call histories and estimator behaviours",
  ["src/Featurizer.h:Estimator", "src/Featurizer.h:FitEstimatorImpl"])
p("A transformer is created once, only after training",
  "create_transformer succeeds only when training is completed and at most once per estimator.",
  "every sequence of API calls",
  "ranges over call histories",
  ["src/Featurizer.h:TransformerEstimator::create_transformer"])
p("Annotations are append-only and first wins",
  "Adding an annotation never removes, reorders or alters annotations already present in any column; looking up an annotation by name and type returns the earliest added one of that type, and throws if there is none.",
  "every sequence of add/get operations over every set of columns",
  "ranges over histories",
  ["src/Featurizer.h:Estimator::add_annotation", "src/Featurizer.h:Estimator::get_annotation_impl"])
p("Training does not depend on how the data is batched",
  "For the training-only estimators (and everything built on them) the trained result depends only on the sequence of training items, not on how the items are split over fit calls, and at most MaxNumTrainingItems items are used, after which the estimator reports Complete.",
  "every item sequence, every partition into batches, every item limit, every policy",
  "ranges over all partitions",
  ["src/Featurizers/Components/TrainingOnlyEstimatorImpl.h"])
p("Pipeline inference is function composition",
  "Executing a pipeline of transformers on an input sequence followed by flush delivers exactly what feeding each stage's complete output (including what it emits on flush) to the next stage delivers, in the same order.",
  "every number of stages, every (stateful) stage behaviour, every input sequence",
  "ranges over arbitrary stage behaviours and inputs",
  ["src/Featurizers/Components/Details/PipelineExecutionEstimatorImpl_details.h:TransformerChainElement", "src/Featurizers/Components/PipelineExecutionEstimatorImpl.h"])
p("Pipeline save and load",
  "A pipeline transformer saved and loaded is the pipeline of the saved and loaded stages, in the right order, for every number of stages.",
  "every number of stages, every stage codec that round-trips",
  "arbitrary nesting",
  ["src/Featurizers/Components/Details/PipelineExecutionEstimatorImpl_details.h:TransformerChainElement::save"])
p("Pipeline training is stage by stage",
  "Training a pipeline by repeated passes over the data trains no stage before its predecessors are complete and, once completed, has every stage completed; when the trained stages keep no memory between calls (no state, nothing emitted on flush), each stage is trained on exactly the data as transformed by the stages before it, ending as if it had been trained alone on that data.",
  "every number of stages, every data set and history of calls; order and completion for every stage behaviour, the data claim for every estimator behaviour whose transformer is memoryless (it is false otherwise)",
  "ranges over behaviours and data",
  ["src/Featurizers/Components/Details/PipelineExecutionEstimatorImpl_details.h:fit_impl"])
# ---------------------------------------------------------------- pointer table
p("Handles are unique, non-null and stable",
  "Every successful Add to the handle table returns a non-zero handle that no live object has; Get of a live handle returns the pointer it was created for, whatever other operations ran in between; Get or Remove of a zero, never-issued or removed handle throws.  Calls that overlap in time behave as if each took place at one moment between its beginning and its end, and none waits for ever.",
  "every history (interleaving) of Add/Get/Remove from any number of threads, every random sequence",
  "ranges over histories and random draws",
  ["src/SharedLibrary/PointerTable.h:PointerTable"])
# ---------------------------------------------------------------- statistics
p("Histogram counts exactly",
  "After training, the histogram holds exactly the distinct training values, each with its number of occurrences (modulo 2^32), in any order of the data.",
  "every training sequence",
  "all sequences and permutations",
  ["src/Featurizers/Components/HistogramEstimator.h"])
p("Index maps are dense, sorted and deterministic",
  "Without pre-existing values, the index map assigns to the distinct training values the indexes 0..n-1 in increasing order of value, independently of the order of the training data and of hash-table iteration order; with pre-existing values these keep their indexes, and if they are dense the result is a bijection onto 0..n-1.",
  "every training sequence, every hash iteration order, every pre-existing dense map",
  "all orders and sequences",
  ["src/Featurizers/Components/IndexMapEstimator.h:CreateIndexMap"])
p("Order estimator ranks by first appearance",
  "Each distinct training value gets as its index the number of distinct values that appeared before it; empty training throws.",
  "every training sequence", "all sequences",
  ["src/Featurizers/Components/OrderEstimator.h"])
p("Mode is the most frequent value, ties by first appearance",
  "The mode is a non-null training value with maximal count; among those, the one that appeared first; the result does not depend on hash iteration order; training data without a non-null value throws.",
  "every training sequence and hash iteration order", "all sequences and orders",
  ["src/Featurizers/Components/ModeEstimator.h"])
p("Median",
  "The streaming median equals the median of the sorted non-null training values: the middle one for odd counts, and for even counts the lower middle (no interpolation) or the mean of the two middle values; the result does not depend on the order of the data.",
  "every non-empty sequence of values", "all sequences and orders",
  ["src/Featurizers/Components/MedianEstimator.h"])
p("Minimum and maximum",
  "The min/max estimators return the least and greatest non-null training value, and training without a value is rejected.",
  "every training sequence", "all sequences",
  ["src/Featurizers/Components/MinMaxEstimator.h", "src/Featurizers/Components/StatisticalMetricsEstimator.h"])
p("Frequency is the least gap",
  "The frequency estimators return the smallest difference between successive time stamps of the same grain, reject input that is not strictly increasing per grain, and reject (or report as not inferable) data with no grain having two rows.",
  "every training sequence of grains and time stamps", "all sequences",
  ["src/Featurizers/Components/FrequencyEstimator.h", "src/Featurizers/Components/TimeSeriesFrequencyEstimator.h", "src/Featurizers/Components/GlobalMinimumFrequencyEstimator.h"])
p("Integer sums are exact or refused",
  "For integer columns the statistics report count and sum exactly, or training throws; the sum never silently wraps.",
  "every training sequence of 64-bit integers", "overflow occurs only on rare data",
  ["src/Featurizers/Components/StatisticalMetricsEstimator.h"])
p("Maximum absolute value",
  "The max-abs estimator returns the greatest absolute value of the training data.",
  "every training sequence", "all sequences, extreme values included",
  ["src/Featurizers/Components/MaxAbsValueEstimator.h"])
# ---------------------------------------------------------------- featurizers
p("Scalers send training data into their range",
  "MinMaxScaler maps every value between the trained minimum and maximum into [0,1] (minimum to 0, maximum to 1, constant columns to 0) and MaxAbsScaler maps every value into [-1,1], under IEEE arithmetic with rounding.",
  "every trained range and every value in it", "all floating-point values and roundings",
  ["src/Featurizers/MinMaxScalerFeaturizer.h", "src/Featurizers/MaxAbsScalerFeaturizer.h"])
p("MinMaxScaler save and load",
  "A saved and loaded MinMaxScaler scales exactly as the original.",
  "every trained minimum and maximum of every numeric input type", "rounding and wrap-around occur only for special pairs",
  ["src/Featurizers/MinMaxScalerFeaturizer.h:MinMaxScalerTransformer::save"])
p("Standard and robust scaling",
  "StandardScaleWrapper and RobustScaler compute (x - centre) / scale with the trained centre and scale, leave the scale out when it is zero, and never divide by zero.",
  "every trained state and input", "all values",
  ["src/Featurizers/StandardScaleWrapperFeaturizer.h", "src/Featurizers/RobustScalerFeaturizer.h"])
p("Normalizer uses the norm of the matching row",
  "After training on n rows, the i-th executed row (i < n) is divided by the norm of the i-th training row, null cells stay null, and executing more than n rows throws.",
  "every training set, every number of executions", "histories",
  ["src/Featurizers/Base/NormalizeFeaturizer.h", "src/Featurizers/Components/VectorNormsEstimator.h"])
p("One-hot encoding",
  "Every trained value is encoded by a vector with exactly one non-zero position; distinct trained values have distinct positions; with missing values allowed, position 0 is reserved for exactly the unseen values; otherwise unseen values throw. The vector length is the number of trained values (plus one if missing values are allowed).",
  "every training sequence and every later input", "all sequences",
  ["src/Featurizers/OneHotEncoderFeaturizer.h"])
p("Label encoding and numericalization",
  "Distinct trained values get distinct labels forming 0..n-1 (shifted by one, with 0 reserved for unseen values, when missing values are allowed); unseen values throw when they are not; Numericalize gives the label or NaN exactly for unseen values.",
  "every training sequence and every later input", "all sequences",
  ["src/Featurizers/LabelEncoderFeaturizer.h", "src/Featurizers/NumericalizeFeaturizer.h"])
p("Hash one-hot stays in range and is a function of the input",
  "HashOneHotVectorizer always yields a one-hot vector of the configured length with a position below it, determined by the input bytes and seed only; the hash reads only the bytes of the input.",
  "every input byte string, every seed, every positive number of columns", "all byte strings",
  ["src/Featurizers/HashOneHotVectorizerFeaturizer.h", "src/3rdParty/MurmurHash3.cpp:MurmurHash3_x86_32", "src/Traits.h:MurmurHashGenerator"])
p("Sparse vectors are well formed",
  "Every sparse vector that can be constructed has strictly increasing indexes, at least one value and no more values than elements, and single-value vectors have an index below their length; all other arguments throw.",
  "every constructor argument", "all lists",
  ["src/Featurizers/Structs.h"])
p("Forward fill",
  "ForwardFillImputer outputs one value per input: the input itself if not null, else the last non-null input before it, else the default value; with neither it throws.",
  "every input sequence and default", "all sequences",
  ["src/Featurizers/ForwardFillImputerFeaturizer.h"])
p("Backward fill",
  "BackwardFillImputer, over a sequence followed by flush, outputs one value per input in order: the input if not null, else the next non-null input, else the default; flush with pending rows and no default throws.",
  "every input sequence and default", "all sequences",
  ["src/Featurizers/BackwardFillImputerFeaturizer.h"])
p("Statistic imputers change only nulls",
  "Cat/Mode/Mean/Median/MinMax imputers return non-null inputs unchanged and replace nulls by the trained statistic, for each input exactly one non-null output; ImputationMarker and MissingDummies report exactly the nulls.",
  "every trained value and input", "all inputs",
  ["src/Featurizers/Components/ImputerTransformer.h", "src/Featurizers/CatImputerFeaturizer.h", "src/Featurizers/ImputationMarkerFeaturizer.h", "src/Featurizers/MissingDummiesFeaturizer.h"])
p("String conversion round trip",
  "For bool, string, every integer type and optionals of them, FromString applied to ToString of a value returns the value; FromString of an integer outside the type's range throws.",
  "every value of every such type", "2^64 values",
  ["src/Traits.h:Traits<>::ToString", "src/Traits.h:Traits<>::FromString", "src/Featurizers/StringFeaturizer.h", "src/Featurizers/FromStringFeaturizer.h"])
# ---------------------------------------------------------------- windows / time series
p("Circular buffer keeps the last elements",
  "After any pushes, a circular buffer of capacity n holds the last min(n, pushes) elements, oldest first, for every sub-range a reader asks for.",
  "every capacity and push sequence", "all wrap-around positions",
  ["src/Featurizers/Components/WindowFeaturizerBase.h:CircularBuffer"])
p("Rolling windows see exactly the right rows",
  "Column o of the t-th output of a rolling window featurizer is the window function of the last maxWindow inputs ending horizon-o rows before t, or null if fewer than minWindow such inputs exist; it never uses other rows, and flush forgets the history.",
  "every input sequence, horizon, window sizes and row", "all sequences and parameters",
  ["src/Featurizers/Base/RollingWindowTransformerBase.h", "src/Featurizers/SimpleRollingWindowFeaturizer.h", "src/Featurizers/AnalyticalRollingWindowFeaturizer.h"])
p("Rolling window extremes and means are right",
  "The minimum, maximum and mean reported for a window are those of its values.",
  "every window", "all windows, negative values included",
  ["src/Featurizers/Calculators/MinCalculator.h", "src/Featurizers/Calculators/MaxCalculator.h", "src/Featurizers/Calculators/MeanCalculator.h"])
p("Lag and lead operator",
  "For n inputs followed by flush the lag/lead operator outputs n matrices; the entry of the m-th for offset d and horizon column c is input m+d-(horizon-1-c), or null if there is no such input; after flush it behaves as new.",
  "every input sequence, horizon and list of positive/negative offsets", "all sequences and offsets",
  ["src/Featurizers/LagLeadOperatorFeaturizer.h"])
p("Forecasting pivot",
  "The pivot emits, for each column without null in any input matrix row, exactly the concatenation of that column over all matrices, in column order, and nothing else.",
  "every list of matrices", "all shapes",
  ["src/Featurizers/ForecastingPivotFeaturizer.h"])
p("Short grains are dropped, others kept",
  "The short grain dropper marks a row for dropping exactly if its grain had fewer than the minimum number of training rows (grains never seen included).",
  "every training set, minimum and later row", "all histories",
  ["src/Featurizers/ShortGrainDropperFeaturizer.h", "src/Featurizers/ShortGrainDropperFeaturizer.cpp"])
p("Time series imputation fills gaps and only gaps",
  "For each key, the rows output for chronological input are the input rows in order, marked as original, with exactly the missing rows last+frequency, last+2*frequency, ... before the next input inserted and marked as imputed; consecutive output times of a key differ by at most the frequency; keys do not influence each other; non-chronological input throws.",
  "every input sequence over any number of keys, every positive frequency", "all sequences and interleavings of keys",
  ["src/Featurizers/Components/TimeSeriesImputerTransformer.h"])
p("Time series imputation values",
  "With forward fill, a null cell takes the nearest earlier non-null cell of its column and key; with backward fill the nearest later one, rows being emitted only when complete and in order, the rest on flush; with the median strategy the training median of the column and key. Non-null cells are never changed.",
  "every input sequence", "all sequences",
  ["src/Featurizers/Components/TimeSeriesImputerTransformer.h", "src/Featurizers/Components/TimeSeriesMedianEstimator.h"])
p("Grains are independent",
  "The outputs a grained transformer delivers for one grain are those a transformer of that grain's own would deliver on the rows of that grain alone; unknown grains throw unless on-demand creation was configured.",
  "every interleaving of grains, every inner transformer", "all interleavings",
  ["src/Featurizers/Components/GrainFeaturizerImpl.h:GrainTransformer"])
p("Grained transformers survive save and load",
  "Saving and loading a grained transformer, any number of times, keeps every trained grain's transformer.",
  "every set of grains, every number of save/load cycles", "repeated cycles",
  ["src/Featurizers/Components/GrainFeaturizerImpl.h:GrainTransformer::save", "src/Featurizers/Components/GrainFeaturizerImpl.h:GrainTransformer(Archive &)"])
p("Grained training trains each grain on its own rows",
  "Training a grained estimator gives every grain the annotation its own estimator computes from that grain's rows in order.",
  "every interleaving of grains", "all interleavings",
  ["src/Featurizers/Components/GrainFeaturizerImpl.h:GrainEstimatorImpl"])
p("Filter featurizer passes the tuple through",
  "A filter transformer's output is the input tuple followed by the inner transformer's output on the selected columns.",
  "every inner transformer, selection and input", "all inputs",
  ["src/Featurizers/Components/FilterFeaturizerImpl.h"])
# ---------------------------------------------------------------- text
p("Tokenizer",
  "Parsing a string by a separator predicate reports exactly its maximal separator-free non-empty segments, left to right.",
  "every string and predicate", "all strings",
  ["src/Strings.h:Parse"])
p("Word n-grams",
  "Word n-gram parsing reports, for every n in the configured range, exactly the substrings spanned by n consecutive words; invalid ranges throw.",
  "every string, predicate and range", "all strings and ranges",
  ["src/Strings.h:ParseNgramWord"])
p("Character n-grams",
  "Character n-gram parsing reports exactly the substrings of every length in the configured range.",
  "every string and range", "all strings and ranges",
  ["src/Strings.h:ParseNgramChar", "src/Strings.h:ParseNgramCharHelper"])
p("Text clean-up",
  "Trim removes exactly the leading and trailing matching characters; de-duplication replaces every run of separators by one blank; both are idempotent.",
  "every string and predicate", "all strings",
  ["src/Strings.h:Trim", "src/Strings.h:ReplaceAndDeDuplicate", "src/Strings.h:StringPadding"])
p("Document statistics",
  "The document statistics give for every term the number of documents containing it, keep with top-k exactly k terms of greatest document count (ties by term order), and index the kept terms densely in term order.",
  "every corpus, hash iteration order and limit", "all corpora and orders",
  ["src/Featurizers/Components/DocumentStatisticsEstimator.cpp", "src/Featurizers/Components/DocumentStatisticsEstimator.h"])
p("Count vectors",
  "The count vector of a document has, at the index of each known term, the number of its occurrences (1 in binary mode), only known terms, in increasing index order.",
  "every vocabulary and document", "all documents",
  ["src/Featurizers/TfidfVectorizerFeaturizer.cpp", "src/Featurizers/CountVectorizerFeaturizer.cpp"])
# ---------------------------------------------------------------- dates
p("Date fields are consistent with the calendar",
  "Every date field produced for a time point (year, month, day, hour, minute, second, weekday, day of year, quarter, half, day of quarter, week of month, ISO week and year, labels) is that of its day and time of day in the proleptic Gregorian calendar and within its range, for every time point from 1970 on and every whole second before (a fraction of a second before 1970 is rounded towards 1970).",
  "every time point of a 64-bit clock with at least ten million ticks a second, every gmtime that meets the C standard", "all days of all years",
  ["src/Featurizers/DateTimeFeaturizer.cpp:TimePoint::TimePoint"])
p("Holiday lookup",
  "The holiday name reported for a time point is the last one listed for its calendar day, and empty if none is, for every time of that day from 1970 on and every midnight before; nothing else in the result depends on the table.",
  "every time point and holiday table", "all times of day, times before 1970",
  ["src/Featurizers/DateTimeFeaturizer.cpp:DateTimeTransformer::execute_impl"])
# ---------------------------------------------------------------- added as the model grew
p("Hostile bytes never give a malformed value",
  "Whatever bytes are read, a successful deserialization returns a well-formed value of the type: numbers in range, containers with at most the announced number of elements, ordered maps strictly sorted, unordered containers without equal keys; saving it again and reading that back gives the same value.",
  "every byte string, every supported type (ordered maps with keys without floating point)",
  "all byte strings, not only those a writer produced",
  ["src/Traits.h:Traits<>::deserialize"])
p("Training and inference read the same terms",
  "A document gives the same terms, in the same order, when a vectorizer is trained on it and when the trained vectorizer is applied to it, for every analyzer, n-gram range and case setting; single words are the maximal segments without white space, lower-cased if asked for.",
  "every document and vectorizer setting", "all documents and settings: two separate code paths must agree on each",
  ["src/Featurizers/Components/DocumentStatisticsEstimator.h:fit_impl", "src/Featurizers/Components/DocumentStatisticsEstimator.cpp:DocumentDecorator", "src/Featurizers/Components/DocumentStatisticsEstimator.cpp:DocumentParseFuncGenerator"])
p("Regular expression tokens",
  "Tokenizing with a regular expression ends and gives the successive leftmost matches, from left to right, non-overlapping and within the text.",
  "every expression, text and matching engine", "all expressions, including those with empty matches",
  ["src/Strings.h:ParseRegex"])
p("Tf-idf vectors",
  "The tf-idf vector of a document has, at the index of each known term, tf times idf of the term under the chosen policy (binary, sublinear, smoothed idf or none) divided by the chosen norm of these weights, nothing else, in increasing index order; with a norm every component lies between 0 and 1.",
  "every trained vocabulary, document, policy and norm; every logarithm with values of at most 1024",
  "all documents: floating point results for every count",
  ["src/Featurizers/TfidfVectorizerFeaturizer.cpp:execute_impl"])
p("Supported countries",
  "A country name is accepted exactly if it is the name of a data file, that without extension, that in lower case, or that without spaces; every name of the list of supported countries is accepted and the list is sorted; an estimator that accepted its country can create its transformer, which reads the first matching file; with the shipped files each accepted name stands for one file whatever the directory order.",
  "every country name, every set and order of data files", "all names and all directory orders",
  ["src/Featurizers/DateTimeFeaturizer.cpp:DoesCountryMatch", "src/Featurizers/DateTimeFeaturizer.cpp:EnumCountries", "src/Featurizers/DateTimeFeaturizer.cpp:DateTimeEstimator::GetSupportedCountries", "src/Featurizers/DateTimeFeaturizer.cpp:DateTimeEstimator::IsValidCountry"])
p("Time points as text",
  "Reading an ISO 8601 date and time (with dashes and colons or without, with T or blanks between, with a fraction of a second the clock can hold, with Z or an offset) gives exactly that instant, and a date or time of day that does not exist is refused with std::invalid_argument; the text of a time point is its UTC date and time, and reading it gives the time point truncated to the second.",
  "every date, time, fraction, zone and layout; every time point; clocks of up to 16 decimal places",
  "all texts and all time points, including the ends of the clock",
  ["src/Traits.h:CommonTimePointTraits::ToString", "src/Traits.h:CommonTimePointTraits::FromString", "src/3rdParty/date.h:from_stream", "src/3rdParty/date.h:to_stream"])
p("C interface: handles, errors, ownership",
  "Every function of the C interface answers as a ledger of handles and memory blocks says: it returns true with the result of the C++ method, or false with the handle of a new error whose text can be read; a handle or block that is handed out is none that the caller still holds; a destroyed handle is refused; nothing but the named object changes. When everything received was given back no memory is held.  With handles of the right kind and methods that are defined, every function returns: no exception leaves it and nothing undefined happens.",
  "every featurizer (its methods are parameters), every history of calls, every allocator and random engine",
  "all histories of calls, including failed ones, and all orders of giving back",
  ["src/SharedLibrary/GeneratedCode/SharedLibrary_*Featurizer.cpp", "src/SharedLibrary/GeneratedCode/SharedLibrary_Common.cpp", "src/SharedLibrary/PointerTable.h"])
p("Floating point numbers as text",
  "The text of a finite float or double is its sign and the nearest number with six decimals; any decimal numeral is read as the nearest float (std::out_of_range only beyond the range); reading the text of a number gives a number of the same sign at most a millionth away that has the same text, and gives back exactly infinities, NaN, large numbers and numbers that are nearest to a number with six decimals.",
  "every float and double, every numeral, every text", "all bit patterns and all texts",
  ["src/Traits.h:Traits<std::float_t>::ToString", "src/Traits.h:Traits<std::float_t>::FromString", "src/Traits.h:Traits<std::double_t>::ToString", "src/Traits.h:Traits<std::double_t>::FromString"])
p("Saving and loading the time series imputer",
  "Loading a saved time series imputer (alone, or with its column types as the C interface stores it) gives the same settings - column types, strategy, medians of every key, error setting - with the frequency cut to whole microseconds, and leaves what follows unread; truncated archives and other versions are refused; whatever the bytes, what is loaded is a transformer that the constructor accepts.  An estimator is created exactly for existing types and strategies, with the median strategy only for floating point columns unless errors are suppressed.",
  "every setting, every table of medians, every clock of at least microseconds, every byte string", "all settings and all byte strings",
  ["src/Featurizers/Components/TimeSeriesImputerTransformer.h:save", "src/Featurizers/Components/TimeSeriesImputerTransformer.h:TimeSeriesImputerTransformer(Archive &)", "src/SharedLibrary/SharedLibrary_TimeSeriesImputerFeaturizer.cpp:TransformerMemory", "src/SharedLibrary/SharedLibrary_TimeSeriesImputerFeaturizer.cpp:TimeSeriesImputerFeaturizer_CreateEstimator"])
p("Rows through the C interface of the time series imputer",
  "For the rows handed to Transform (time, keys, cells of strings, integers, booleans, time points in whole seconds, and floats with six decimals) the returned rows are those of the imputer on the values themselves, in the same encoding: although the library passes every value through its text, no value and no distinction between keys is lost.  So with Forward every null is replaced by the last value before it and the gaps are filled, with Backward the complete rows are returned, with Median the nulls of floating point columns become the median of the key.  A row cut short is refused without a trace; what follows a row is not read.",
  "every list of column types, every row of such values, every sequence of calls (also with rows that are refused), every clock of 1 to 16 decimal places", "all rows and all call sequences",
  ["src/SharedLibrary/SharedLibrary_TimeSeriesImputerFeaturizer.cpp:TimeSeriesImputerFeaturizer_BinaryArchive_Transform", "src/SharedLibrary/SharedLibrary_TimeSeriesImputerFeaturizer.cpp:Serializer", "src/Featurizers/Components/TimeSeriesImputerTransformer.h:execute_impl"])
p("Statistics of floating point columns",
  "For float and double columns training the statistics (used by the mean and min/max imputers and the scalers) ends in a result or an exception.  A result reports the exact number of values that are not NaN, their exact minimum and maximum, a sum within one relative rounding error of long double per addition of the exact sum, and an average between minimum and maximum that is the exact average up to as many rounding errors and two more.  Columns whose sums need no rounding (multiples of one power of two of bounded total) are never refused.  The median of the numbers that are not NaN is the one in the middle, or (interpolated, even count) the rounded midpoint of the two in the middle, which lies between them.",
  "every training sequence of floats or doubles (NaN, infinities and signed zeros included), in every batching, up to 2^53 rows, for long doubles of 53 bits and more", "all columns; the refusals and rounding errors need particular numbers and thousands of rows",
  ["src/Featurizers/Components/StatisticalMetricsEstimator.h:StandardStatsUpdater", "src/Featurizers/MeanImputerFeaturizer.h"])
p("Training the time series imputer",
  "Training on any batches of rows ends with a transformer or an exception.  The transformer uses the smallest time step between two consecutive rows of one key, over all keys, and for each key and floating point column the mean of the values that are not null (read with six decimals, summed in IEEE double in order, divided by their number; within the rounding errors of that sum of the exact mean).  Training throws exactly when two rows of a key are not in increasing time order, no key has two rows, a floating point column of a key has no value, or (on texts) a value is not a number; the batching does not matter.  Followed by Transform on new rows, gaps are filled in that step and nulls by the strategy.",
  "every list of batches of rows (as texts, or as encoded values at the C interface), every list of column types, every strategy, every clock of 1 to 16 decimal places", "all training sets and batchings, followed by all sequences of new rows",
  ["src/Featurizers/TimeSeriesImputerFeaturizer.h:TimeSeriesImputerEstimator", "src/Featurizers/Components/TimeSeriesFrequencyEstimator.h:fit_impl", "src/Featurizers/Components/TimeSeriesMedianEstimator.h:fit_impl", "src/Featurizers/Components/TimeSeriesMedianEstimator.h:complete_training_impl", "src/Featurizers/Components/TimeSeriesImputerTransformer.h:create_transformer_impl", "src/SharedLibrary/SharedLibrary_TimeSeriesImputerFeaturizer.cpp:TimeSeriesImputerFeaturizer_BinaryArchive_FitBuffer"])
p("Results handed over by the C interface",
  "When Transform, Flush, CreateTransformerSaveData or GetSupportedCountries returns true, the caller finds the values in the memory it received (zero-terminated strings, null for an empty one; arrays with their counts), the arrays are new and nothing else changed.  As long as the caller leaves them alone, whatever else happens, the matching Destroy function returns true and frees exactly these arrays, each once.  At whatever allocation memory runs out, the call returns false with an error (or the exception leaves it if there is no memory for the error), the caller's memory is unchanged, and for strings, numbers, matrices, sparse vectors, saved bytes and countries nothing is lost.  Excepted: a sparse vector without values or elements, and a matrix without rows or columns, which Destroy refuses.",
  "every result (strings, numbers, matrices, sparse vectors, time points, arrays of strings, rows of numbers, grains with matrices, saved bytes, countries), every allocator and every allocation that fails, every state of memory before the call and before the matching Destroy", "all results, all memory states and a failure at every allocation",
  ["src/SharedLibrary/GeneratedCode/SharedLibrary_*Featurizer.cpp:*_Transform", "src/SharedLibrary/GeneratedCode/SharedLibrary_*Featurizer.cpp:*_Flush", "src/SharedLibrary/GeneratedCode/SharedLibrary_*Featurizer.cpp:*_DestroyTransformedData", "src/SharedLibrary/GeneratedCode/SharedLibrary_Common.cpp:DestroyTransformerSaveData", "src/SharedLibrary/SharedLibrary_DateTimeFeaturizerCustom.cpp:DateTimeFeaturizer_GetSupportedCountries"])
p("Arguments of the C interface",
  "Fit, FitBuffer and Transform work on exactly what the caller's memory describes: numbers and zero-terminated texts (null where a value may be missing), arrays of them, grains with numbers, matrices row by row; points in time as seconds or as the text the library writes.  Nothing of the caller's memory is changed, whatever is passed, and nothing beyond the stated counts is needed; null arrays and a count of zero are refused.  Excepted: rows of matrices (FitBuffer of the pivot) unless there are as many rows as matrices in each.",
  "every memory and every pointer, count, text, grain, matrix and point in time", "all memory contents and sizes",
  ["src/SharedLibrary/GeneratedCode/SharedLibrary_*Featurizer.cpp:*_Fit", "src/SharedLibrary/GeneratedCode/SharedLibrary_*Featurizer.cpp:*_FitBuffer", "src/SharedLibrary/GeneratedCode/SharedLibrary_*Featurizer.cpp:*_Transform", "src/SharedLibrary/GeneratedCode/SharedLibrary_Common.cpp:CreateDateTime"])
p("Principal components",
  "The PCA estimator accepts exactly one matrix and hands the covariances of its columns to the eigensolver; the transformer refuses empty matrices and matrices with another number of columns.  What a row becomes does not depend on the rows it is presented with; lengths, distances and angles between rows and the total variance are preserved and the input can be recovered.  The columns of the transformed training data are uncorrelated and have the eigenvalues as variances.",
  "every training matrix, every input matrix, every eigensolver that returns orthonormal eigenvectors in increasing order (in exact arithmetic)", "all matrices of all sizes and all valid eigensolvers",
  ["src/Featurizers/PCAFeaturizer.h:PCATransformer::execute_impl", "src/Featurizers/PCAFeaturizer.h:PCAEstimator::fit_impl", "src/Featurizers/PCAFeaturizer.h:PCAEstimator::create_transformer_impl"])
p("Truncated singular value decomposition",
  "Trained on a matrix, with whatever random numbers are drawn, the TruncatedSVD transformer holds the right singular vectors of the matrix in decreasing order of the singular values (orthogonal projections, unit length, eigenvectors of the Gram matrix, nothing of the matrix lost, each the most stretched direction orthogonal to those before), provided the columns kept span what they were made from; they do if the random matrices are invertible and no column is dropped as too short.  The result is the input projected on them, up to the sign of each column, chosen so that the first entry of greatest absolute value is not negative; it does not depend on the signs the decomposition chose.  The orthogonalisation always returns orthonormal columns followed by zeros.",
  "every training matrix, every sequence of random numbers, every decomposition that returns right singular vectors, every input matrix (in exact arithmetic)", "all matrices of all sizes, all random numbers and all valid decompositions",
  ["src/Featurizers/TruncatedSVDFeaturizer.h:svd_flip", "src/Featurizers/TruncatedSVDFeaturizer.h:sample_gaussian", "src/Featurizers/TruncatedSVDFeaturizer.h:gram_schmidt", "src/Featurizers/TruncatedSVDFeaturizer.h:TruncatedSVDTransformer::execute_impl", "src/Featurizers/TruncatedSVDFeaturizer.h:TruncatedSVDEstimator::fit_impl"])
p("Threads that call the C interface at the same time",
  "If no two threads use one handle or block at the same time, every call that returns gives the answer it would give if it were alone and new handles and blocks are none that are known; nothing undefined happens; no two threads are about to use the same object, and the object is allocated; at most one thread is inside the handle table; when everything was given back no memory is held.  Whatever the threads do, every call that has begun can come to its end.",
  "every number of threads, every interleaving of their single steps, every history of calls, every address the allocator chooses and every handle that is drawn", "interleavings cannot be enumerated; a race shows up only in some of them",
  ["src/SharedLibrary/PointerTable.h:PointerTable::Add", "src/SharedLibrary/PointerTable.h:PointerTable::Get", "src/SharedLibrary/PointerTable.h:PointerTable::Remove", "src/SharedLibrary/GeneratedCode/SharedLibrary_MeanImputerFeaturizer.cpp", "src/SharedLibrary/GeneratedCode/SharedLibrary_Common.cpp"])
p("Windows and lags per grain, end to end",
  "The rolling window and lag/lead estimators want no data and give a transformer for which every sequence of rows (of any grains, interleaved), flushes and reloads succeeds.  Rolling windows answer a row with exactly one row: the windows over the values that row's grain has had since the last flush or reload; nothing else delivers anything.  Lag/lead answers a row with the matrix that has become complete, if any, marked with the grain; a flush delivers the remaining matrices grain after grain in the order of the grains; a reload delivers nothing.  Bad parameters are refused when the estimator is made.",
  "every sequence of rows, flushes and save/load cycles, every set of grains, every window calculation, every horizon, window size and list of offsets whose sizes fit 32 bits", "all interleavings of grains with all points of saving and flushing",
  ["src/Featurizers/SimpleRollingWindowFeaturizer.h:GrainedSimpleRollingWindowEstimator", "src/Featurizers/AnalyticalRollingWindowFeaturizer.h:GrainedAnalyticalRollingWindowEstimator", "src/Featurizers/LagLeadOperatorFeaturizer.h:GrainedLagLeadOperatorEstimator", "src/Featurizers/Components/FilterDecoratorFeaturizer.h", "src/Featurizers/Components/GrainFeaturizerImpl.h"])
p("Accuracy of norms, deviations and standard scores of floating point data",
  "A norm the normalizers compute for a row of floats or doubles is the exact L1 or L2 norm of the numbers that are not NaN up to one rounding error of long double per step (and, for L2, what squares lose to underflow), and was computed from finite numbers only.  If it is a number and the true norm is at least 2^-450, every cell of the normalized row is the exact quotient up to (k + 4) 2^-51 for k numbers, and the norm of the normalized row is 1 up to (k + 5) 2^-51.  A trained standard scaler subtracts a value near the exact mean and divides by one near the exact standard deviation (both with explicit bounds; by 1 if that came out as 0), and a score is the quotient up to two roundings; NaN stays NaN.  Training and norms end in a result or an exception.",
  "every row and column of float or double, including NaN, infinities, subnormal numbers; every integer column of values up to 2^53; every batching; long double of 53 bits or more", "rounding errors depend on all values and their order; bounds must hold for all of them",
  ["src/Featurizers/StandardScaleWrapperFeaturizer.h:StandardScaleWrapperEstimator", "src/Featurizers/Components/StandardDeviationEstimator.h:StandardDeviationTrainingOnlyPolicy", "src/Featurizers/Components/NormUpdaters.h", "src/Featurizers/Components/VectorNormsEstimator.h", "src/Featurizers/Base/NormalizeFeaturizer.h"])
p("Errors while transforming: what a refused row leaves behind",
  "A caller may catch an exception of execute or flush and go on.  For the stateless featurizers, the forward fill, the backward fill (rows) and the filter wrapper, a transformer that has seen any sequence of rows, some refused by itself or by the consumer of its results, is in the state it would be in had it seen only the rows that were accepted; so a missing value is filled with the last accepted value, and a flush of the backward fill may be repeated until it succeeds without losing or repeating a row.  The same holds for a pipeline in which every stage but the last emits at most one result per row, and changes its state only after it.  A row of one grain, however it ends, leaves every other grain as it was.  Windows, lags and the normalizers instead count every row, also one whose result was refused.  With a consumer that accepts everything all of them are the transformers of the other properties.",
  "every sequence of execute and flush calls, every consumer and every point at which it throws, every pipeline and grain map", "an exception may come at any row and between any two results; tests exercise a few throwing callbacks",
  ["src/Featurizer.h:Transformer", "src/Featurizers/Components/Details/PipelineExecutionEstimatorImpl_details.h", "src/Featurizers/ForwardFillImputerFeaturizer.h", "src/Featurizers/BackwardFillImputerFeaturizer.h", "src/Featurizers/Components/FilterFeaturizerImpl.h", "src/Featurizers/Base/RollingWindowTransformerBase.h", "src/Featurizers/LagLeadOperatorFeaturizer.h", "src/Featurizers/Base/NormalizeFeaturizer.h", "src/Featurizers/Components/GrainFeaturizerImpl.h"])
p("Errors while training: what a refused value leaves behind",
  "A caller may catch an exception of fit and go on training.  For the estimators of the frequency (of a column and of the series of grains), and for those whose fit checks before its first assignment (histogram, minimum and maximum, median, maximal absolute value, order, document statistics), the annotation after any sequence of values, some refused, is that of training on the accepted values alone; of a batch that is refused, exactly what came before the offending value is kept.  The statistics of integers take a refused value into the count, the minimum and the maximum but not into the sum; those of floating point columns count every value that is not NaN, and after a refused infinity refuse every finite value.  The norm of a row that follows an accepted row (or is the first) is its own, and there is one norm for every accepted row; the deviation either shows no trace of what was refused, or refuses everything from then on.  Training with a row of one grain, however it ends, leaves the other grains' estimators as they were, and each grain is trained as it would be on its own.",
  "every sequence of values or batches, every point at which fit throws, every limit on the number of training items, every number of grains", "a refusal may come at any value of any batch, and its traces only show in the annotation of later values; tests check that an exception is thrown and stop",
  ["src/Featurizers/Components/TrainingOnlyEstimatorImpl.h:fit_impl", "src/Featurizers/Components/StatisticalMetricsEstimator.h:StandardStatsUpdater", "src/Featurizers/Components/FrequencyEstimator.h", "src/Featurizers/Components/TimeSeriesFrequencyEstimator.h", "src/Featurizers/Components/NormUpdaters.h", "src/Featurizers/Components/VectorNormsEstimator.h", "src/Featurizers/Components/StandardDeviationEstimator.h", "src/Featurizers/Components/GrainFeaturizerImpl.h:fit_impl", "src/Featurizer.h:fit"])
p("Featurizers end to end: estimators that share annotations",
  "A featurizer is a pipeline of estimators over one column: some learn an annotation from the rows, some derive one from the annotations that are there, the last makes the transformer.  Whatever the rows, however they are cut into batches, training ends with what the estimators learn one after the other, each from all of the rows, and with annotations in that column only.  So from the first row of training to the results: the label encoder, the one-hot encoder and numericalize number the distinct values they were trained on; the imputers for the most frequent value, the median, the minimum or maximum and the mean replace nulls, and nulls only, by that statistic of the training rows, and throw if there were no values; the standard, robust, maximal absolute value and min-max scalers have the centre and the scale of the training rows.  An annotation that is in the column already is used instead of being learnt.",
  "every chain of such estimators, every column, every set of rows and every way of batching them, every iteration order of the hash maps, every rounding", "the pipeline restarts the data for each estimator and hands annotations on through shared maps; a test covers one data set and one batching per featurizer",
  ["src/Featurizers/Components/PipelineExecutionEstimatorImpl.h", "src/Featurizers/Components/Details/PipelineExecutionEstimatorImpl_details.h", "src/Featurizers/Components/TrainingOnlyEstimatorImpl.h", "src/Featurizers/LabelEncoderFeaturizer.h", "src/Featurizers/OneHotEncoderFeaturizer.h", "src/Featurizers/NumericalizeFeaturizer.h", "src/Featurizers/ModeImputerFeaturizer.h", "src/Featurizers/CatImputerFeaturizer.h", "src/Featurizers/MedianImputerFeaturizer.h", "src/Featurizers/MinMaxImputerFeaturizer.h", "src/Featurizers/MeanImputerFeaturizer.h", "src/Featurizers/StandardScaleWrapperFeaturizer.h", "src/Featurizers/RobustScalerFeaturizer.h", "src/Featurizers/MaxAbsScalerFeaturizer.h", "src/Featurizers/MinMaxScalerFeaturizer.h"])
p("The order of the training rows",
  "Training a featurizer on the same rows in another order, and cut into other batches, ends the same way: with the same error or with an equal transformer.  So for the label encoder, the one-hot encoder, numericalize, the minimum, maximum and median imputers, the min-max and maximal absolute value scalers (the min-max scaler of a floating point column up to the sign of zeros); for the mean imputer and the robust scaler of integer columns whose partial sums fit 64 bits in both orders; for the mode imputers if one value is more frequent than every other; and document statistics have the same terms, counts and indexes.  The time series imputer learns the same step and means if rows of different keys are interleaved differently.",
  "every set of rows, every two orders of them and every two ways of batching them, every iteration order of the hash maps", "there are n! orders of n rows; a test tries one or two",
  ["src/Featurizers/Components/HistogramEstimator.h", "src/Featurizers/Components/IndexMapEstimator.h", "src/Featurizers/Components/ModeEstimator.h", "src/Featurizers/Components/MinMaxEstimator.h", "src/Featurizers/Components/MedianEstimator.h", "src/Featurizers/Components/MaxAbsValueEstimator.h", "src/Featurizers/Components/StatisticalMetricsEstimator.h", "src/Featurizers/Components/DocumentStatisticsEstimator.h", "src/Featurizers/Components/TimeSeriesFrequencyEstimator.h", "src/Featurizers/Components/TimeSeriesMedianEstimator.h"])
p("Clients of the C interface",
  "A program that creates an estimator through the C interface, feeds it rows until it is trained, creates a transformer, transforms rows and destroys what it made (the program of the generated tests) comes to its end, and ends with the values that the C++ objects give when they are trained and used directly, or with the text of their exception; afterwards no memory is held.  What one program saves, another one loads with the same results.  Any number of such programs in any number of threads, whatever the interleaving: none sees any trace of the others, none touches what another is using, and when all have ended no memory is held.  So for the library's featurizers: the results are those of C80.",
  "every featurizer, every list of training rows and of rows to transform, every number of threads, every interleaving, every choice of addresses and handles", "interleavings and addresses are not under a test's control; the generated tests run one client with one column",
  ["src/SharedLibrary/IntegrationTests/GeneratedCode/SharedLibraryTests_MeanImputerFeaturizer.h", "src/SharedLibrary/GeneratedCode/SharedLibrary_MeanImputerFeaturizer.cpp", "src/SharedLibrary/PointerTable.h", "src/Featurizers/Components/PipelineExecutionEstimatorImpl.h", "src/Featurizer.h"])
p("Scaling keeps the order of the values",
  "If one value of a column is not above another, then its scaled value is not above the other's: for the min-max scaler (float, double and integer columns) when the width of the trained range is in the type, for the max-abs scaler whatever it was trained with, for the standard scaler with and without mean and deviation, for the robust scaler; also values outside the trained range and infinities. The cells of a row of a normalizer keep their order. No value is sent to NaN by this. Kept weakly: different values may become equal.",
  "every pair of values of the column (infinite ones included, NaN excluded), every trained state, every column type and width", "tests scale a few small integers; rounding decides the order of the results for every pair of values",
  ["src/Featurizers/MinMaxScalerFeaturizer.h", "src/Featurizers/MaxAbsScalerFeaturizer.h", "src/Featurizers/StandardScaleWrapperFeaturizer.h", "src/Featurizers/RobustScalerFeaturizer.h", "src/Featurizers/Base/NormalizeFeaturizer.h"])
p("The scaled values are close to the formulas in real arithmetic",
  "What a scaler returns differs from the real number of its formula by a few units of relative rounding error (plus half the least number of the format): for the min-max scaler (x - min) / (max - min), for the max-abs scaler x / max|.|, for the robust scaler (x - centre) / scale; for values inside the trained range and outside it, and also after the min-max scaler was saved and loaded. A min-max scaler of float columns never overflows, never goes below 0 in the trained range and exceeds 1 by the error of a float at most.",
  "every trained range whose width is finite, every finite value, every floating point format of at least 3 (saved: 7) bits, integers of at most as many bits as the result has", "tests compare a few values to the rounded quotient; the error bound is a statement about all values",
  ["src/Featurizers/MinMaxScalerFeaturizer.h", "src/Featurizers/MaxAbsScalerFeaturizer.h", "src/Featurizers/RobustScalerFeaturizer.h"])
p("The sample estimator adds the sum of what it was trained with",
  "A transformer made by the sample estimator returns its input plus the sum of all the values of all the batches it was trained with, modulo 2^32; how the values were batched and in which order they came makes no difference; what it saves (eight bytes) loads back as the same transformer, leaving the bytes that follow.",
  "every sequence of non-empty batches of any size, every order and batching of the same values, every input, every trained state", "tests add a few numbers; wrap-around and batching are statements about all sequences",
  ["src/Featurizers/SampleAddFeaturizer.h", "src/Featurizers/SampleAddFeaturizer.cpp"])
p("What saved data are loaded as",
  "Saved data determine the transformer: two transformers of one kind whose saved data begin alike are the same, and their data end at the same place; whatever bytes were loaded, the loaded transformer can be saved and loads as the same one again; CreateTransformerFromSavedData reads saved data as the parameters of the kind that is asked for, whatever follows them and whichever kind of transformer with parameters of the same types saved them.",
  "every kind of transformer, every parameters, every byte string, every bytes appended", "tests load what was saved by the same kind, without anything behind it; that no two transformers share their data is a statement about all pairs",
  ["src/Archive.h:Archive::AtEnd", "src/SharedLibrary/GeneratedCode/SharedLibrary_StringFeaturizer.cpp:StringFeaturizer_int8_CreateTransformerFromSavedData", "src/Featurizers/MaxAbsScalerFeaturizer.h:MaxAbsScalerTransformer::save"])
p("Comparing transformers",
  "Two transformers of one kind compare equal with == exactly if their parameters are the same values without a NaN: numbers equal as numbers, sequences element by element, unordered tables if they give the same for every key, whatever the order of their entries.  So == is an equivalence relation among transformers without NaN, and a loaded transformer equals the one that was saved.  Date transformers are equal exactly if their countries have the same holidays; projections only if their matrices agree up to 0.000001 in every cell.  Encoders and min-max scalers that compare equal give equal results for every value, and label encoders without missing values and numericalize compare equal only then.  Pipelines compare equal exactly if their transformers do, one by one; if equal transformers answer alike whatever calls are made, so do equal pipelines.  Sparse vectors are equal exactly if they have the same size and equal values at the same indexes.",
  "every kind of transformer, every two or three parameters, every order of the entries of unordered containers, every pipeline, every sequence of calls", "tests compare single pairs; symmetry, transitivity and independence of the hash order are statements about all pairs and orders",
  ["src/Featurizers/LabelEncoderFeaturizer.h:LabelEncoderTransformer::operator==", "src/Featurizers/TfidfVectorizerFeaturizer.cpp:TfidfVectorizerTransformer::operator==", "src/Featurizers/DateTimeFeaturizer.cpp:DateTimeTransformer::operator==", "src/Featurizers/PCAFeaturizer.h:PCATransformer::operator==", "src/Featurizers/Components/Details/PipelineExecutionEstimatorImpl_details.h:TransformerChainElement::operator==", "src/Featurizers/MinMaxScalerFeaturizer.h:MinMaxScalerTransformer::operator==", "src/Featurizers/Structs.h:SparseVectorEncoding::operator=="])
p("Accuracy of projections",
  "A cell of what PCA or TruncatedSVD returns, in single or double precision, is within n roundings of the sum of the magnitudes of the products (plus what tiny products lose) of the inner product of the input row and the trained vector, n being the number of columns, whatever the order in which the products are added, partial sums and fused operations; TruncatedSVD up to one sign per column, chosen so that an entry of greatest magnitude is not negative.  It is a finite number unless the products are near the largest number, and exact for whole numbers with products up to 2^24 (2^53).  Empty inputs and inputs of another width are refused.",
  "both floating point types, every trained matrix and input, every order of summation", "tests compare a few outputs with a tolerance on one machine; the order of the sum depends on the machine and the sizes",
  ["src/Featurizers/PCAFeaturizer.h:PCATransformer::execute_impl", "src/Featurizers/TruncatedSVDFeaturizer.h:svd_flip", "src/Featurizers/TruncatedSVDFeaturizer.h:TruncatedSVDTransformer::execute_impl"])
p("Completing the training early",
  "A client may hand over the rows once and call complete_training without on_data_completed. For the encoders, the imputers of minima, maxima, medians and means, and the max-abs and min-max scalers this gives the transformer, or the exception, of the full training. The scalers that read the rows again (standard, robust) throw a RuntimeError and the mode imputers an InvalidArgument: no transformer is made from part of what it needs.",
  "every sequence of non-empty batches below the limit on the number of rows, every featurizer built from one estimator per piece of knowledge and one maker", "tests always train to the end",
  ["src/Featurizer.h:Estimator::complete_training", "src/Featurizers/Components/PipelineExecutionEstimatorImpl.h:PipelineExecutionEstimatorImpl::complete_training_impl", "src/Featurizers/Components/Details/PipelineExecutionEstimatorImpl_details.h:complete_training", "src/Featurizers/Components/StandardDeviationEstimator.h", "src/Featurizers/Components/ModeEstimator.h"])
p("Flushing",
  "After any sequence of calls of execute and flush none of which throws, ending with a flush, a transformer behaves as when it was new: nothing handed over before the flush has an influence on what is delivered after it. This holds for rolling windows, lags and leads, backward fill, the time series imputer, filters, transformers without state, the transformers of grains, and for every pipeline of these. Forward fill is the exception: it keeps the last value.",
  "every history of calls, every further sequence of calls, every pipeline", "tests flush once, at the end",
  ["src/Featurizer.h:Transformer::flush", "src/Featurizers/Components/Details/PipelineExecutionEstimatorImpl_details.h:TransformerChainElement::flush", "src/Featurizers/Components/GrainFeaturizerImpl.h:GrainTransformer::flush_impl", "src/Featurizers/Components/FilterFeaturizerImpl.h:FilterTransformer::flush_impl", "src/Featurizers/LagLeadOperatorFeaturizer.h:flush_impl", "src/Featurizers/Base/RollingWindowTransformerBase.h:flush_impl", "src/Featurizers/BackwardFillImputerFeaturizer.h:flush_impl", "src/Featurizers/Components/TimeSeriesImputerTransformer.h:flush_impl"])
p("Accuracy of tf-idf vectors",
  "A tf-idf vector is the one of the textbook formulas up to single precision: for a document with k different known terms each component equals the weight of its term - term frequency (1, the number of occurrences, or 1 + ln of it) times inverse document frequency (1 + ln(documents+1 / documents with the term, +1 if smooth)) - divided by the L1 or L2 norm of these weights, up to a relative error of (k+7) 2^-23, provided std::log is accurate to 2^-52; the norm of the vector delivered is 1 up to (k+4) 2^-23; without a norm the components are the weights themselves, each within 2^-23.",
  "every document of up to 2^20 terms, every training result, every logarithm, all flags and norms", "tests compare a few vectors with expected ones at a tolerance",
  ["src/Featurizers/TfidfVectorizerFeaturizer.h:TfidfVectorizerTransformer::execute", "src/Featurizers/TfidfVectorizerFeaturizer.h:TfidfPolicy"])
if __name__ == "__main__":
    for x in P: print(json.dumps(x))
