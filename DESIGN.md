# Formal model of tomthecarrot/constellation in Rocq (Coq 8.16.1)

## Method

The Rust/C# code is modelled function by function as total, computable Gallina
functions.  `&mut self` methods return the new value, `Result`/`Option` stay
data, and every reachable panic (`unwrap`, `expect`, `todo!`, `assert!`, slice
indexing, `unreachable!`) is an explicit `Panic` outcome.  Hash iteration order
is a parameter (any permutation).  Each definition cites the file and lines it
models and says where it simplifies.

Layout (`/verif/rocq/theories`):

* `Base.v`, `Types.v`, `Arena.v`, `Time.v`, `Channel.v`, `Contract.v`,
  `Baseline.v`, `Engine.v`, `Flat.v`/`Serializer.v`/`Deserializer.v`,
  `Macro.v`, `Mangle.v`, `Tween.v`, `Managed.v`, `CSharp.v` - the executable model, no proofs;
* `*Spec.v` - small independent specifications used by the property statements;
* `*Proofs.v` - lemmas;
* `Properties*.v` - only property theorems, each `exact lemma`, with
  `Print Assumptions` and a non-vacuity `Example`.

A property that is false of the unchanged code is stated, refuted by a witness
(`…_refuted`), and the part that does hold is proved beside it.

## Per-property plan

| id | modelled | proof |
|----|----------|-------|
| C01, C02 | generational arena (external crate 0.2.8, modelled from its published algorithm) and the repo's wrapper | refinement of every history to an abstract handle map with an "ever issued" set; invariant on free list and generations |
| C03 | `register_contract`/`unregister_contract` | iff characterisation + invariant over reachable baselines |
| C04-C06 | `object_create` with its type check | iff characterisation, frame lemma over all handles, read-back lemma |
| C07 | all public baseline operations | refinement to a map from object handles to records of values (no-aliasing invariant) |
| C08 | `bind_state`/`bind_channel`/`Object::state` | exact functional characterisation |
| C09 | typed arenas, dyn handles (`DynEnum.v`: the 28-variant enums of `DynEnum!` with From, TryInto, dispatch, equality, `DynTpPropId::new`) | typing invariant over reachable baselines; case analysis over the variants |
| C10, C11 | `object_remove`, `unregister_contract` | refuted by witness; exact outcome characterisation for all reachable baselines |
| C12, C32 | all public operations | dead-handle / liveness invariants over all continuations |
| C13 | `Realm` with two baselines | commutation/frame over interleavings |
| C14, C15, C17 | `apply_collaction`, `apply_action`, `reverse_action` | characterisation by induction on the action list; writes refuted |
| C16 | crossbeam queue as a FIFO list with optional capacity | trace theorem over all interleavings of send/apply/tick |
| C18-C20 | i32 saturating/wrapping arithmetic on Z | arithmetic |
| C21 | `prop_iter!` | induction on fields; `nth` refuted |
| C22, C23 | `Channel::new` with an arbitrary unstable sort; f64 comparison on bit patterns | relational sort spec; refutation through `keyframes_mut` and NaN |
| C24, C28 | 14 primitive + 14 vector variants | case analysis over all variants, unbounded values |
| C25, C26, C27, C33, C34 | serializer and deserializer over flatbuffer tables | graph-isomorphism round trip; conformance; refutations |
| C29 | the attribute macro on a list of (name, type) | induction |
| C30 | `mangle_path` on strings | refuted; injectivity on underscore-free segments |
| C31 | `JumpTweenable`, `IntTweenable` with IEEE single floats (`SpecFloat`) | case analysis; refutations; for every distance and finite time: error bound and monotonicity through Flocq (`TweenReal.v`) |
| C35 | C# integer shifts | refutation by arithmetic |
| C37 | iterator cursors over the slot vector (`ArenaIter.v`) | refinement of cursors to a plain double-ended list; writes through `iter_mut` equal a history of `get_mut` writes |
| C38 | the two systems and start-up over the baseline model (`CircleGame.v`), f32 arithmetic on bit patterns (`FloatBits.v`) | refinement of the stored states to a per-circle specification that knows nothing of the engine (`CircleSpec.v`), via a table of distinct handles (`Table.v`); the numbers (`FloatSpec.v`: bit patterns as rationals) through Flocq: the bit-level operations are rounding to nearest of the exact result (`FloatReal.v`, `CircleReal.v`) |
| C39 | the demo's FFI functions, data sources and synchroniser over the baseline model (`UnityDemo.v`), casts with unspecified results as a parameter | table of distinct typed handles (`Table.v`), rounding bounds of `TweenProofs.v` |
| C40 | native heap of never-reused cells, wrappers with inner pointer and ownership, all 29 wrapped methods as a signature table, Dispose, finalizers inside calls | ownership invariant (one owner per box, boxes in flight, fresh views valid) by induction over programs; refutations by symbolic execution in an arbitrary world |
| C41 | the deserializer model of C24-C27 over the baseline model of C06-C10 | each deserializer function's effect is a list of baseline operations; induction over the builder, object reading and reference fix-up |
| C42 | SpecFloat conversion from integer and division, at both precisions | exact characterisation of conversion as round-half-even of the mantissa, division by 1024 as an exponent shift; nearest-integer specification in TimeFloatSpec.v |
| C43 | C# strings as lists of code units, Rust strings as lists of bytes, the four library conversions and Rust's UTF-8 validation (Text.v) | induction on the decoding steps against the Unicode bit-distribution tables written separately (TextSpec.v) |
| C44 | the native heap of boxes, pointers into it with borrow epochs, the exported functions as one transition system with results, aborts and undefined behaviour (CApi.v); channel, keyframe and vector functions are left out | heap invariant preserved by every call; fields characterised by binding and reading as the client does it (CApiSpec.v) |
| C45 | native heap with value boxes, keyframe boxes, vector buffers (initialised slots and capacity), channels and pointer arrays; vector structs held by value; the exported functions with results, aborts and undefined behaviour (CList.v) | simulation between programs on plain data and the C programs (CListSpec.v), by an ownership invariant; leak count by counting cells |
| C46 | Substitute.v: the visitor over syntax trees, with the depth of calls as fuel so that a non-ending expansion is visible; attribute texts are split and joined as in the code | SubstituteSpec.v gives the inductive relations text_replaced and replaced; both inclusions are proved by induction on trees and on depth, ending by induction on the item, non-ending by induction on the depth; the symbols by combining with C30 |
| C47 | `CSharp.v`: wrapper objects (class, pointer or null, ownership) over the native heap of `CApi.v`; each method as guards, native call, wrapping; `CSharpSpec.v`: the C# expressions that read and write a field or a state, when a call should throw | invariant of programs (owned wrappers have distinct live boxes of their class; lent pointers into boxes are only baselines), each call is one C call giving away only what it nulls, simulation of the read/write chains, then the C44 theorems; refutations by direct execution for all arguments |
| C48 | `Handlebars.v` (the template language as far as the templates use it), `Codegen.v` (both generators, with a fault at any file operation), `Sources.v` (the template texts, generated verbatim from /repo by `tools/gensources.py`) | rendering with symbolic type records by computation; induction over the rendered list with the fault list |
| C49 | `Exports.v` (all `#[ffi_export]` functions with symbols and C signatures), `LinkSpec.v` (a scanner for native calls in C# text, with the arguments), `Sources.v` | boolean checkers over the scanned text, each proved sound, run by the kernel's `vm_compute` |
| C50 | `PInvoke.v`: paths, a file system as a list of files, the directory walk, deletion, copying and the three runs, with CppSharp as a function | frame lemmas for each step; arithmetic of splitting at dots and slashes |
| C51 | the reader and the verifier of the flatbuffers crate over lists of bytes, for the schema of the project | for each table a promise: if the check accepts, reading succeeds and the values are proper; the second counter of the verifier bounds what is read; monotonicity of check and reader in the buffer for the torn files |
| C52 | the crate's FlatBufferBuilder (back-to-front buffer, alignment, vtable cache) and the generated create functions; the serializer with its builder | a predicate says that a value is written at a place and read back from it by reader and verifier, kept by everything written later; refinement of the table-level serializer; size bounds both ways |
| C53 | Views.v: memory of variables and a baseline; borrow_mut variant by variant, From<&mut T>, <&mut Vec<T>>, <&mut [T]>, DynStateHandle::get_mut, assignments through a view, derived equality. | Soundness invariant of a view (its place holds a value of its type, the slice is in range) kept by every write; framing by C09's write/read theorem for states. |
| C54 | `Serializer.v`, `Deserializer.v`, `WireSerial.v`, `Wire.v`; `DeserHistory.v` follows the deserializer and keeps a client history with the same result | a history of ordinary calls is built alongside the deserializer's calls (register, create, set), values tracked by a predicate; copies compose (`Again.v`); induction on the number of generations |
| C55 | `Baseline.v`: all state-changing calls on a baseline | each call is shown to leave a place alone, to empty it or to fill it with what it was given (`Provenance.v`); induction on the calls |
| C56 | the script command by command, with `set -e`, kill and failure points; options as getopts reads them; the symbolic links; the toolchain (cargo, cross, dotnet) as a parameter that writes in its own area only (`BuildScript.v`, `BuildSpec.v`) | facts that hold of every command of the script for every combination of flags are computed once (32 combinations x 2 hosts), then lifted by induction over runs to all file systems, toolchains and histories (`BuildProofs.v`, `PropertiesBuild.v`) |
| C57 | BuildAndroid.v: the settings object, GetDefaults, the loop of OnPostGenerateGradleAndroidProject over the file system of BuildScript.v; FileUtil's delete and copy (which may fail or be killed after writing part of the file). Unity's own work is any change within its Library and Temp directories. | Frame lemmas (the hook and Unity leave alone what the links rest on, so C56's invariant `ready` carries over), then case analysis of the two iterations; the success condition is proved as an equivalence. |
| C58 | Release.v: the functions with an operation that depends on the build (IntTweenable::ease, prop_iter nth, Serializer::serialize and finish), with wrapping arithmetic and without the assertion. | Agreement by case analysis; tweens reduced to debug tweens from 0 (C31) carried around the circle; the assertion by an invariant of all serialize calls (every entry of the maps stands for a placeholder of its own). |
| C59 | `Keys.v`: the writes of each key type's `Hash` to the hasher, `==`, chained hash tables that grow, two tables kept in step for `BiHashMap` | invariant: each pair sits in the bucket of its key, once; refinement of histories to finite maps and to the pair lists of `Flat.v` |
| C60 | Clients.v: the collactions a client owns and its engines (the concurrent system of Engine.v); moves, in-place edits of the same length, drops, panics | conservation invariant over all interleavings (a multiset of what exists); the refutation is its corollary with nothing built |
| C61 | Baseline.v with histories in which a panicking step is caught and the baseline is used as the panic left it (PanicProofs.v: csteps) | invariant over all such histories (the one of C03-C12 less the listing clause), exact post-state of the panicking loop by induction on the iteration order |
| C62 | CallerIter.v: an iterator is its size hint and the results of its calls of next; check_types! as the fold over zip_longest, counting the calls | induction on the contract's field types; corollaries against the vector version of C04 |
| C63 | Serializer.v with a program that drops the errors of serialize (PropertiesSerFail.v: serialize_each); the bytes failed calls leave in the builder (WireSerial.v: w_half; PropertiesWireFail.v: save_each) | exact post-state of one call by induction on the iteration order; the calls together equal the successful calls on the trimmed selection, to which the buffer theorem of C33 (generalised to part of an object set) applies |
| C64 | Deserializer.v with programs that ignore errors and catch panics (PropertiesLoadFail.v: loads, loads_any); the state left by a panic is the one the assertion saw (the overwritten bimap) | invariant over all such programs (LoadAny.v: the deserializer invariant of C26 relative to the list of all objects made, copies included); the objects made of a contract are an initial segment of the buffer's objects of it, all well formed; the exact one-object lemma (C26) gives the converse |
| C65 | Ordered.v: the comparisons of handles (index_cmp of ArenaIter.v) and times; a search tree that sees its keys through cmp only, with rotations at any node; binary search | induction on trees for an invariant (in-order listing strictly ascending) against a specification of ordered maps as partial functions; uniqueness of ascending listings; arena histories by induction; refutations by counterexample |

## What is modelled, file by file

| code | model | left out |
|------|-------|----------|
| `crates/datastructures/arena` + generational-arena 0.2.8 | `Arena.v`, `ArenaIter.v`, `Ordered.v` (ordered maps keyed by handles, C65) | `drain`, `retain`, `clear` (not exposed by the wrapper) |
| `client/rust/src/contract/properties/{traits,dynamic/*}` | `Types.v`, `Dynamic.v`, `Views.v`, `DynEnum.v` | `Debug` output (`Hash`: `Keys.v`, C59) |
| `client/rust/src/time` | `Time.v`, `TimeFloat.v`, `Ordered.v` (comparisons, C65) | - |
| `.../channels/channel.rs`, `dyn_channel` | `Channel.v` | - (`c_api` module: below) |
| `.../channels/misc.rs` | `Tween.v` (values: `TweenReal.v`) | the external `keyframe::ease` driver |
| `client/rust/src/contract/mod.rs`, `states/*`, `channels/*` ids, handles, iterators | `Contract.v`, `Baseline.v` | - (`c_api` modules: below) |
| `client/rust/src/{baseline,object}.rs` | `Baseline.v`, `Indexing.v`, `CallerIter.v` (iterators of the caller) | - (`c_api` modules: below) |
| the `c_api` modules of `baseline.rs`, `object.rs`, `contract/mod.rs`, `states/{mod,id,handle}.rs`; `client/contract_example/rust` | `CApi.v` | channel, keyframe and vector functions (`CList.v`); the hash order of `ContractData__objects`; Rust's stricter aliasing rules (the model accepts more programs); allocation failure |
| `c_api` of `channels/channel.rs`, `crates/rsharp/rust/src/rvec.rs`, `client/cs/src/RVec_Keyframe.cs` | `CList.v` | in-place reallocation (a growing push always moves); the C# setter (C40) |
| `client/rust/src/{engine,realm}.rs`, `action/*` | `Engine.v`, `Clients.v` (who can hold a collaction) | real threads (crossbeam is a FIFO list) |
| `client/serialize/rust/src/serializer` | `Serializer.v`, `Flat.v` (tables as values), `WireSerial.v` (the bytes) | - |
| `client/serialize/rust/src/deserializer/new` | `Deserializer.v` (from tables), `Wire.v` (verification and reading of bytes) | - |
| `client/serialize/flatbuffers/*.fbs`, the code flatc generates from them, crate flatbuffers 22.12.6 | `Wire.v` | the crate is not in /repo: modelled from its published source; depth limit 64 (the schema is not recursive); wrap-around of positions; the builder's 2 GiB limit (the theorems ask for less) |
| `client/serialize/rust/src/types` | `Flat.v`, `PropertiesTags.v` | - |
| `client/contract_macro` | `Macro.v` | spans, generics, attributes |
| `crates/rsharp/rust/macro/src/remangle.rs` | `Mangle.v` | token handling; `syn::Ident::new` validity is a parameter |
| `crates/rsharp/rust/macro/src/substitute.rs` | `Substitute.v` | the parser and the tokenizer (parameters); trees keep only macro expressions, attributes and nesting |
| `demos/unity_states/rust/src/lib.rs`, `cs/src/BallContract.cs`, `unity/Assets/Scripts/BallStateDataSource*.cs` | `UnityDemo.v`, `Color.v` | text output (`LogCurrentData`, billboard), Unity itself |
| `demos/circle_game/src/{lib,circle,components,circle_bundle}.rs` | `CircleGame.v`, `FloatBits.v` (binary32 on bit patterns; `FloatSpec.v`, `FloatReal.v`, `CircleReal.v`: their values) | Bevy itself (any schedule), drawing, wasm entry |
| `crates/rsharp/cs/src`, `client/cs/src`, the generated wrapper classes (`client/codegen_wrapped/*.tpl`, `rbox.cs.tpl`), `ExampleContract.cs`, `BallContract.cs` | `Managed.v` (memory of all of them), `CSharp.v` (values, exceptions, native panics and undefined behaviour of all but `BallContract.cs`) | strings as UTF-16 (see `Text.v`); finalizers running during a call (C40) |
| `crates/rsharp/cs/src/RString.cs`, `crates/rsharp/rust/src/string.rs` | `Text.v` | .NET's and Rust's own converters are modelled from their documentation; `GetString` on ill-formed bytes (unreachable) |
| `deserializer/old.rs` | not modelled | dead code: compiled (`mod old;`) but private, neither exported nor used |
| `crates/rsharp/codegen`, `client/codegen_wrapped` and their templates | `Handlebars.v`, `Codegen.v`, `Sources.v` (C48) | the white space Handlebars removes around tags that stand alone on a line; command line parsing; error texts; the directory is flat |
| all `#[ffi_export]` functions (symbols and C signatures), and the C# text that calls them | `Exports.v`, `LinkSpec.v` (C49) | CppSharp (only assumed to keep letters and digits of a name) |
| `client/codegen_pinvoke/Main.cs` (paths, deletions, copies, order of runs) | `PInvoke.v` (C50) | CppSharp itself (a parameter), the options given to it, the AST pass, Windows paths |
| `client/build_mac_host.sh`, the symbolic links of `demos/unity_states/unity/Assets/Plugins` | `BuildScript.v` (C56) | file dates; white space in the checkout's path (the script does not quote); rsync's temporary file; cargo, cross and dotnet are parameters (assumptions: `toolchain` in `BuildSpec.v`) |
| `Cargo.toml` (`profile.release`): what a release build does at overflows and debug assertions | `Release.v` (C58) | optimisation, link-time optimisation |
| `demos/unity_states/unity/Assets/Plugins/Constellation/Editor/*.cs`, `ConstellationBuildSettings.asset` | `BuildAndroid.v` (C57) | Unity's `FileUtil` and `AssetDatabase`, modelled from their documentation; the log messages; the unused `dotnetProjectPath` |
| Unity scenes, wasm glue | not modelled | external tools |

## Checking the model against the repository's tests

`Tests*.v` replay the repository's own tests on the model, assertion by assertion: the Rust
unit tests (arena, tweens, comparisons, time, macros), `round_trip.rs` down to the bytes of
the file, and the C# tests (`TestObjectCreate` with the two arguments it forgets, C49). They
are examples, not claims: they tie the model to results the authors obtained by running the
code. Not replayed: `generate_headers` (writes the C header; the exported functions are C49),
`rust_test` and the wasm tests (`1 == 1`). `TestVec`, disabled by the authors because it
crashes, passes on the model; `TestsList.v` says what that means.

## Trusted base

* Coq 8.16.1's kernel (and `vm_compute`, used for concrete witnesses and finite
  case tables).
* `Print Assumptions` stands under every property theorem.  All but five answer
  "Closed under the global context": no axiom, neither ours nor the standard library's.
  The exceptions are `C38_grid_positions_are_exact`, `C38_each_move_is_rounded_once`
  and `C38_circles_stay_finite_and_near` (`PropertiesCircleReal.v`),
  `C31_int_any_distance` and `C31_int_never_goes_back` (`PropertiesTweenReal.v`), whose
  proofs (not statements) go through real numbers with Flocq and list these standard-library axioms
  and no others: `ClassicalDedekindReals.sig_forall_dec`,
  `ClassicalDedekindReals.sig_not_dec`,
  `FunctionalExtensionality.functional_extensionality_dep`, `Classical_Prop.classic`.
  (`vcheck` also lists seven `Coq.ssr.ssrunder` and the `Coq.Reals.Rdefinitions.*Impl`
  constants: they are fields of sealed modules of libraries that get loaded, not axioms;
  `Print Assumptions` lists none of them.)
* The reading of the Rust and C# sources.  Every definition cites its lines.
* Assumed of external code, and built into the model:
  generational-arena 0.2.8 behaves as its published source (modelled in `Arena.v`;
  u64 generations are unbounded); crossbeam channels are FIFO queues, bounded ones
  report `Full`; `HashMap`/`HashSet`/`BiHashMap` are finite maps with arbitrary
  iteration order (C59: for these key types it is enough that they are tables with
  buckets); `typemap` holds at most one arena per type;
  `slice::sort_unstable_by` returns some permutation sorted by a consistent
  comparison (and an arbitrary permutation otherwise); the flatbuffers crate and
  the code flatc generates do what `Wire.v` says (C52 proves that this is what the
  table-level model of C25-C27 takes for granted); handlebars in strict mode
  with `prevent_indent` renders the few constructs the templates use as documented
  (`Handlebars.v`; blank space around tags that stand alone on a line is not modelled
  exactly); paste's `:camel` as its source; CppSharp keeps the letters and digits of a
  C function's name.
* C56 (as hypotheses of the theorems, not axioms): cargo, cross and dotnet write in their own
  directories only, succeed only after producing what they are asked for, and dotnet wants
  exactly one project file in the directory.
* `Sources.v` is generated from /repo by `tools/gensources.py`: text for text.
* Assumed of callers: a contract type returns the same static data every time and
  `C::new(h).handle() == h`; no `mem::swap` through `&mut Object` between baselines;
  nothing is claimed about a value after a panic in a method that was mutating it
  (except baselines, C61, and deserializers, C64, whose panics a caller may catch).
* Arithmetic overflow checks and debug assertions are on (a debug build) everywhere but in
  `Release.v` (C58), which models the functions a release build changes; `usize` counters
  do not overflow, but for the argument of `nth`.
* `usize` has 64 bits. On the 32-bit targets (armeabi-v7a, wasm32) only the bound at which
  `nth` overflows and the sizes at which allocation fails differ.
