{
 "C01": [
  "proved",
  "reserve(0) is excluded from histories: it corrupts the free list in generational-arena 0.2.8 (refuted theorem)."
 ],
 "C02": [
  "proved",
  ""
 ],
 "C03": [
  "proved",
  ""
 ],
 "C04": [
  "proved",
  ""
 ],
 "C05": [
  "proved",
  ""
 ],
 "C06": [
  "proved",
  ""
 ],
 "C07": [
  "proved",
  "Proved for histories in which no object is created through a contract handle of a foreign contract type; that case is refuted."
 ],
 "C08": [
  "proved",
  ""
 ],
 "C09": [
  "proved",
  ""
 ],
 "C10": [
  "partial",
  "The full property is false of the code (data leaked, object stays listed): refuted. The exact effect is proved."
 ],
 "C11": [
  "partial",
  "The full property is false of the code (panics): refuted. The exact outcome is proved."
 ],
 "C12": [
  "proved",
  ""
 ],
 "C19": [
  "proved",
  "Exact in range; wrap-around outside is characterised and the claim without the range condition refuted."
 ],
 "C20": [
  "partial",
  "Round trip is exactly characterised; the documented claim is refuted."
 ],
 "C21": [
  "partial",
  "next/collect/size_hint/len proved; nth is wrong in the code: refuted, exact behaviour proved."
 ],
 "C22": [
  "proved",
  "slice::sort_unstable_by is assumed to meet its documented contract."
 ],
 "C23": [
  "partial",
  "Proved for histories without keyframes_mut and NaN; both exceptions refuted."
 ],
 "C24": [
  "proved",
  ""
 ],
 "C32": [
  "proved",
  ""
 ],
 "C13": [
  "proved",
  "Isolation between realms is Rust ownership: a realm is a value with no shared state."
 ],
 "C14": [
  "proved",
  ""
 ],
 "C15": [
  "proved",
  ""
 ],
 "C16": [
  "proved",
  "crossbeam-channel is modelled by its documented FIFO/bounded behaviour, not verified."
 ],
 "C17": [
  "partial",
  "False of the code: a reached write always panics (refuted for every realm and handle). Exact outcome for every collaction proved."
 ],
 "C18": [
  "proved",
  "Applies to histories that do not overwrite the time through time_mut."
 ],
 "C36": [
  "partial",
  "The claim is false of the code: refuted. What holds (handles depend only on the history) is proved."
 ],
 "C28": [
  "partial",
  "Both type comparisons proved in both operand orders; the tag-to-tag clause is false of the code (U32/U64): refuted and characterised exactly."
 ],
 "C26": [
  "partial",
  "Conformance of everything accepted, finish never panics and fails exactly on dangling references, the first deserialize_objects of a contract succeeds exactly if every object of it is acceptable and panics exactly if the first object that is not acceptable is one of two named kinds (specs in PropertiesDeserExact.v; every other failure is an error), and what a second call does, exactly: proved. 'Never panics' is false of the code (four kinds of panic exhibited), hence partial."
 ],
 "C27": [
  "partial",
  "The documented error does not exist: refuted; proved instead exactly which objects the result contains and that references to absent objects are reported."
 ],
 "C34": [
  "proved",
  "Registering a contract with the id of the internal null contract fails too; the iff says so."
 ],
 "C25": [
  "partial",
  "Round trip proved for every panic-free disciplined history, every reference-closed selection of live contracts without channels, every hash order and every registration/deserialization order. Missing, because false of the code and refuted: contracts with channels (proved: their objects are never read back), -0.0 and time warps (lost), removed objects; vector fields are rejected by serialize."
 ],
 "C33": [
  "partial",
  "Exact contents of the buffer, of one serialize call, and its exact success/panic condition proved. The clause 'fails if a listed object no longer exists' is false for contracts without fields, and serializing a contract twice leaves placeholders: both refuted."
 ],
 "C29": [
  "partial",
  "Acceptance, accessor ids, listings, agreement with the contract iterators and reading through the accessor are proved for every declaration. Refuted: accepted declarations need not compile (field named new, vector fields), and raw identifiers evade the reserved-name check."
 ],
 "C30": [
  "partial",
  "Full claim refuted (different paths, one symbol). Injectivity proved for delimited segments with identifiers free of \"__\", and for identifiers of any shape with a distinguishing first letter (the repository's naming convention)."
 ],
 "C31": [
  "partial",
  "Jump tweens characterised exactly; ascending integer tweens up to 2^24 apart proved exact to the neighbouring integer for every f32/f64 time in [0,1]; for every representable distance below 2^64 and every finite time, the exact panic condition, a 2^-22 relative error bound and monotonicity (C31_int_any_distance, C31_int_never_goes_back; these two use the standard library's axioms of real numbers through Flocq). Refuted, hence partial: descending, unsigned descending (panic), more than 2^24 apart, jump at -1."
 ],
 "C35": [
  "partial",
  "Exact packed value and exact collision condition proved for all colours; injectivity refuted."
 ],
 "C37": [
  "proved",
  "The traversal loops are those of generational-arena 0.2.8, modelled from the published source."
 ],
 "C38": [
  "proved",
  "f32 arithmetic is Coq's SpecFloat binary32 on bit patterns. Bevy itself, drawing and colours are not modelled; the scheduler is any order. In the numeric theorems rand::random::<f32>() is a multiple of 2^-24 in [0,1) (rand 0.8.5); their proofs use the standard library's axioms of real numbers (listed in DESIGN.md), through Flocq."
 ],
 "C39": [
  "proved",
  "ObjectCreate passes a boxed contract handle where Rust expects the contract (type confusion); the model reads the handle as the contract's first field, which is what the compiled code does only if rustc keeps the field order."
 ],
 "C40": [
  "partial",
  "Proved for every program that follows the rules of ManagedSpec.v; the parts of the claim the C# code itself breaks are refuted for every state. (Values, native panics and the two arguments ExampleContract.ObjectCreate forgets: C47.)"
 ],
 "C41": [
  "proved",
  "Reachability by API calls is proved call by call; the consistency facts and closure under load/use/save cycles follow. Buffers are the FlatBuffers accessor view of the bytes (see C24-C27)."
 ],
 "C42": [
  "proved",
  "IEEE arithmetic is Coq's SpecFloat. The refuted theorems delimit the claim: beyond 2^24 ticks as_secs_f32 can be a whole second ahead of as_secs, and distinct values share an f32."
 ],
 "C43": [
  "partial",
  "Proved for every non-empty string, both directions, both native constructors. Refuted: new RString(\"\") throws IndexOutOfRangeException."
 ],
 "C44": [
  "partial",
  "Proved for every program. Refuted: ExampleContract__object_remove never returns (it aborts the process on every object), and a program that uses only this library cannot create a first object, since creation consumes a boxed object handle and only creation makes one."
 ],
 "C45": [
  "proved",
  "For single-owner programs. Copying the struct is refuted as a list copy. The C# setter passes the wrong pointer (C40_vector_assignment_confuses_types), so indexed assignment works from C only. push of the C# class does not check that the keyframe is owned: pushing an element of a list is undefined behaviour (C45_csharp_push_of_an_element_refuted)."
 ],
 "C46": [
  "proved",
  "Syntax trees are cut down to macro expressions, attributes and other nodes; the tokenizer (text to tokens and back) and the expression parser are parameters of the theorems."
 ],
 "C47": [
  "partial",
  "ObjectCreate (refuted: undefined, two arguments missing) is excluded from the positive theorems; objects come from a corrected call. Lent views used too late or written through are undefined (refuted). Everything else proved."
 ],
 "C48": [
  "proved",
  "All parts are proved. C48_unreadable_directory_is_overwritten_refuted shows why the proviso about the existence test is needed: Path::exists() answers false on an error, and then files are replaced without -f."
 ],
 "C49": [
  "partial",
  "False at four places: ExampleContract.ObjectCreate passes nine arguments to a native function of eleven (C49_object_create_is_two_short_refuted; that C# does not compile); ExampleContract.ObjectRemove does not give its object away, BallContract.ObjectCreate passes a contract handle for the contract, and BallContract.ObjectRemove passes a contract handle for an object (C49_wrong_arguments_refuted). Everything else is proved for every use; the theorems named _partial exclude exactly those. RVec_Keyframe.cs is left out of the argument theorem (its memory is the subject of C40)."
 ],
 "C50": [
  "partial",
  "False in two ways. If a directory above the project has a dot in its name the copy throws, after the client's bindings have been deleted (C50_dotted_project_fails_refuted); the copying theorem is for dot-free paths (C50_libraries_are_copied_partial). With the default name, the library of the crate unity_states is itself overwritten, first by the client's (which CppSharp then sees in its place) and at the end by the example contract's (C50_real_library_overwritten_refuted). CppSharp is a parameter that writes only below its output directory; the AST pass that ignores copy constructors is not modelled; paths are Unix paths and target/debug exists."
 ],
 "C51": [
  "partial",
  "The last sentence is false: the four bytes of the format's identifier are written but not checked on loading (C51_file_identifier_is_not_checked_refuted). The rest is proved for all byte strings. The generated accessors and the verifier of the crate flatbuffers 22.12.6 are not in /repo; they are modelled from the crate (Wire.v) and trusted to be so."
 ],
 "C52": [
  "partial",
  "False for large baselines: the loader's verifier accepts at most 1000000 tables and an object takes 2 + 3 per field, so a baseline with 60000 objects of five fields is saved without an error and cannot be loaded (C52_a_saved_baseline_may_be_unreadable_refuted). Up to that number (and 10^9 bytes) every saved file is accepted. The statement about restoring has the hypotheses of C25_round_trip_partial. Files of 2 GiB and more are outside the theorems (the crate's builder panics there). The crate flatbuffers is modelled from its source, which is not in /repo."
 ],
 "C53": [
  "proved",
  "Places (program variables and baseline states), views as place/offset/length, all variants. The borrow checker's exclusivity is not modelled; views are used one operation at a time on the current memory."
 ],
 "C54": [
  "proved",
  "The conditions on the selection are those of C25 (and C52 for files): they are what the first save and load need; the theorems add none for the later ones. For files each has at most 10^9 bytes. A file's length may differ from one generation to the next (example C54_two_files)."
 ],
 "C55": [
  "proved",
  "Through the typed handles one writes a state with a value or replaces keyframes; these are the model's two writing calls."
 ],
 "C56": [
  "partial",
  "Options (C56_options), native libraries (C56_native_libraries), stopped runs (C56_no_torn_library), the CppSharp runtime link and the extent of the writes (C56_nothing_else) hold. The rest of the claim is false of the script and refuted: the six assembly links point to demos/unity_states/cs/bin/{main,ios} while the script writes cs/src/bin, so they never open (C56_managed_links_dangle_refuted; where the assemblies are instead: C56_assemblies_are_elsewhere); with -w, a run stopped in the wrong place leaves codegen.csproj renamed, which no later run undoes and which stops every later run with -w (C56_interrupted_runs_rename_refuted, C56_renamed_for_ever, C56_renamed_stops_every_run; the remedy: C56_restored_by_hand); a failing mkdir left of && does not stop the script (C56_placeholder_may_be_missing_refuted); long options are read letter by letter (C56_long_options_refuted)."
 ],
 "C57": [
  "partial",
  "Partial because the last expectation is false of the code: C57_packages_old_or_empty_libraries_refuted proves what a build without -a packages instead (old libraries, or empty files, with no error); everything else is proved. Unity's FileUtil functions are modelled from their documentation."
 ],
 "C58": [
  "proved",
  "The statement about release builds is exact where the two builds differ; the surprising results (indices modulo 65536, tweens around the circle) are part of the statement."
 ],
 "C59": [
  "proved",
  "std's and bimap's tables are modelled as chained buckets with any hash function of what the key writes to the hasher. Contract names are text (no byte 255) for the statement that different ids feed the hasher differently."
 ],
 "C60": [
  "partial",
  "The conservation part is proved for all programs. That clients outside the crate can submit is false of the code (refuted for every such program)."
 ],
 "C61": [
  "partial",
  "Everything but the listing clause is proved for all histories with caught panics; that clause is false of the code (refuted for every baseline with two live objects of a contract with fields), and the exact effect of the panic is proved."
 ],
 "C62": [
  "partial",
  "All clauses but the last are proved for every iterator; the last is false of the code (refuted for every registered contract), the exact condition is proved."
 ],
 "C63": [
  "partial",
  "All clauses but the last are proved; the last is false of the code (refuted for every contract with fields that lists a removed object), and the exact content left behind is proved. Contracts without fields that list removed objects are excluded here (they are written as objects: C33)."
 ],
 "C64": [
  "partial",
  "All clauses but the last sentence are proved; the last sentence is false of the code (C64_failed_load_leaves_nothing_refuted, C64_asking_again_can_load_twice_refuted), and what happens instead is proved."
 ],
 "C65": [
  "proved",
  "Proved for all keys, histories and tree shapes. Two readings the statement does not make are false of the code and are refuted: a handle issued later can come before one issued earlier (slots are reused; only within one slot does the order follow age, which is proved), and adding the same ticks to different times can make them equal (saturation; strictness in range is proved). The tree is a binary search tree with arbitrary rotations standing for the library's B-tree; generational_arena::Index's derived order (slot, then generation) is taken from the crate, which is not in /repo."
 ]
}