{"id": "C01", "title": "Arena handles are never confused", "statement": "Whatever sequence of insert, get, get_mut, remove, contains and reserve(k>0) is made on an Arena, it behaves like a map from handles to values: insert returns a handle that has never been returned before and affects no other handle; get/remove on a handle yields exactly the value last stored under it while it is live, and None before it was issued or at any time after it was removed, even when its slot has been reused.", "quantifier": "every operation sequence of any length, every value type, every starting capacity, every handle (including forged ones)", "why_tests_cant": "slot reuse bugs need particular histories of removals and insertions; the set of histories is infinite", "anchors": ["crates/datastructures/arena/src/lib.rs:Arena::insert,get,get_mut,remove,contains,reserve", "crates/datastructures/arena/src/lib.rs:Index"]}
{"id": "C02", "title": "Arena iteration and length agree with lookup", "statement": "At every point of every history, Arena::iter yields each live (handle,value) pair exactly once, in increasing slot order, and nothing else; len is the number of pairs yielded, is_empty says whether it is 0, and capacity is never smaller than len.", "quantifier": "every reachable arena", "why_tests_cant": "depends on the free-list bookkeeping being right after every possible history", "anchors": ["crates/datastructures/arena/src/lib.rs:Arena::iter,len,is_empty,capacity,reserve"]}
{"id": "C03", "title": "Contract identities are unique in a baseline", "statement": "register_contract succeeds exactly when no live contract of that baseline has the same name and version; a failing call changes nothing; hence no two live contracts of a baseline ever have equal ids, and a handle returned by register_contract resolves to the registered id until the contract is unregistered.", "quantifier": "every history of public Baseline operations, every contract type", "why_tests_cant": "an invariant over all histories, including unregister and re-register", "anchors": ["client/rust/src/baseline.rs:Baseline::register_contract,unregister_contract,contract_data"]}
{"id": "C04", "title": "object_create is all-or-nothing and type-exact", "statement": "object_create(contract, states, channels) succeeds exactly when the contract handle is live and the dynamic types of the given states and channels equal the contract's field types in number and order; when it fails the baseline is left exactly as it was (no state, channel or object is created).", "quantifier": "every reachable baseline, every contract type, every list of property values and channels of any length", "why_tests_cant": "the lists and types range over an unbounded space; partial-failure atomicity must hold at every failing index", "anchors": ["client/rust/src/baseline.rs:Baseline::object_create"]}
{"id": "C05", "title": "object_create disturbs nothing else", "statement": "A successful object_create returns a handle never returned before by that baseline; every object, state, channel and contract handle that resolved before still resolves to the same data, and the contract's object set gains exactly the new handle.", "quantifier": "every reachable baseline and every accepted call", "why_tests_cant": "a frame condition over all existing handles and all histories", "anchors": ["client/rust/src/baseline.rs:Baseline::object_create,state_create,channel_create"]}
{"id": "C06", "title": "A new object's fields hold the values it was created with", "statement": "Right after a successful object_create, binding the contract's i-th state id (channel id) to the new object succeeds and the bound handle resolves, at the field's declared type, to the i-th given value (channel).", "quantifier": "every reachable baseline, contract type, value list and field index", "why_tests_cant": "typed arenas are chosen per value, so a mix-up appears only for particular type combinations", "anchors": ["client/rust/src/baseline.rs:Baseline::object_create,bind_state,state,bind_channel,channel", "client/rust/src/object.rs:Object::bind_state"]}
{"id": "C07", "title": "Objects behave as independent records", "statement": "For clients that use each contract handle with the contract type it was registered for, a baseline behaves as a map from object handles to records of field values: reading field i of object o through bind_state and state returns the value most recently written to that field of that object (or the initial one), and a write to one field never changes any other field of that or any other object.", "quantifier": "every history of public operations of any length, every pair of (object, field)", "why_tests_cant": "aliasing between objects or fields can only be excluded by an invariant over all histories", "anchors": ["client/rust/src/baseline.rs:Baseline::object_create,bind_state,state,state_mut,bind_channel,channel,channel_mut", "client/rust/src/object.rs:Object"]}
{"id": "C08", "title": "Ids of another contract are rejected", "statement": "bind_state and bind_channel fail, without effect, when the object handle is not live, when the id belongs to a different contract handle than the object's, or when the field index is out of range; in every other case they return exactly the handle stored for that field.", "quantifier": "every baseline, every id and every object handle", "why_tests_cant": "the error cases range over all foreign or stale handles", "anchors": ["client/rust/src/baseline.rs:Baseline::bind_state,bind_channel", "client/rust/src/object.rs:Object::bind_state,bind_channel,state,channel"]}
{"id": "C09", "title": "Typed access never yields a value of another type", "statement": "A state handle of type T resolves only to values of type T and a write through it keeps every stored value's type; channels keep their declared type. A dynamic handle or id is exactly one typed one: it reports its type, converts back to that type only, reads (immutably and mutably) what the typed one reads or gives its error, and equals another iff type, slot and generation agree; reading, writing and removing through a handle that resolves to nothing give the same error and change nothing; the dynamic ids of a contract are its fields' typed ids. Indexing (baseline[handle]), read or written, is the same access, except that a failure is a panic that changes nothing.", "quantifier": "every reachable baseline, every property type (primitives and vectors), every handle", "why_tests_cant": "28 typed arenas and arbitrary histories; a wrong arm shows up only for particular types", "anchors": ["client/rust/src/contract/properties/states/handle.rs:IStateHandle", "client/rust/src/contract/properties/states/dyn_handle.rs:DynStateHandle", "client/rust/src/baseline.rs:Baseline::state,state_mut", "client/rust/src/contract/properties/dynamic/__macro.rs:DynEnum,DynTpPropId,apply_to_dyn", "client/rust/src/contract/properties/states/dyn_handle.rs", "client/rust/src/contract/properties/channels/dyn_handle.rs", "client/rust/src/baseline.rs:Index,IndexMut"]}
{"id": "C10", "title": "Removing an object removes it and its data", "statement": "object_remove on a live object of contract C succeeds, makes the object handle unresolvable, releases the object's states and channels and drops the handle from the contract's object set. (False of the code: see the refuted theorems; what does hold is stated and proved.)", "quantifier": "every reachable baseline, contract type and object handle", "why_tests_cant": "must hold for every contract shape and every history; a test on a field-less contract passes", "anchors": ["client/rust/src/baseline.rs:Baseline::object_remove"]}
{"id": "C11", "title": "Unregistering a contract removes it and its objects, without panicking", "statement": "unregister_contract::<C>(h) fails without effect when h is not live or its id is not C's; otherwise it removes the contract and all its live objects. (The second half is false of the code for contracts with fields or with previously removed objects: the call panics; the exact condition for success is proved.)", "quantifier": "every reachable baseline, contract type, handle and iteration order of the object set", "why_tests_cant": "depends on the history of object_remove calls and on hash iteration order", "anchors": ["client/rust/src/baseline.rs:Baseline::unregister_contract,object_remove"]}
{"id": "C12", "title": "Stale object and contract handles never resolve again", "statement": "Once an object (or contract) handle has stopped resolving in a baseline it never resolves again in that baseline, whatever is created later.", "quantifier": "every history continuation of any length", "why_tests_cant": "needs all continuations, including ones that reuse the slot", "anchors": ["client/rust/src/baseline.rs:Baseline::object,contract_data,object_remove,unregister_contract", "crates/datastructures/arena/src/lib.rs:Arena"]}
{"id": "C13", "title": "Main and fork baselines are isolated", "statement": "No operation made through one baseline of a realm (or through another realm) changes what the other baseline returns for any handle, and baseline(kind) always returns the baseline created with that kind.", "quantifier": "every interleaving of operations on the two baselines", "why_tests_cant": "all interleavings", "anchors": ["client/rust/src/realm.rs:Realm::new,baseline,baseline_mut"]}
{"id": "C14", "title": "A collaction is accepted exactly when all its assertions hold", "statement": "For a collaction without state writes, try_apply/apply_timeout returns it as accepted iff every state assertion names a live fork state whose current value equals the asserted value; otherwise it is returned as rejected; the collaction is handed back unchanged.", "quantifier": "every realm, every collaction of any length", "why_tests_cant": "all action lists and all realm states", "anchors": ["client/rust/src/engine.rs:Engine::apply_collaction,apply_action"]}
{"id": "C15", "title": "Applying a collaction without writes never changes the realm", "statement": "Whether accepted or rejected, a collaction without state writes leaves both baselines and the realm time exactly as they were.", "quantifier": "every realm and collaction", "why_tests_cant": "all states and action lists", "anchors": ["client/rust/src/engine.rs:Engine::apply_collaction,reverse_actions"]}
{"id": "C16", "title": "The engine queue is FIFO, exactly once, and bounded", "statement": "Across any interleaving of sends from any number of senders, applies and ticks, collactions are applied in the order they were enqueued, each exactly once, none is invented or lost, and a bounded queue never holds more than its capacity.", "quantifier": "every interleaving of sends and applies, every capacity", "why_tests_cant": "schedules", "anchors": ["client/rust/src/engine.rs:Engine::new,try_apply,apply_timeout"]}
{"id": "C17", "title": "A state write action takes effect and is undone on rejection", "statement": "A collaction containing a state write to a live fork state changes that state, and a rejected collaction leaves the realm unchanged. (False of the code: every state write that is reached panics; proved.)", "quantifier": "every realm and every collaction that reaches a write", "why_tests_cant": "must hold for every position of the write in every collaction", "anchors": ["client/rust/src/engine.rs:Engine::apply_action,reverse_action"]}
{"id": "C18", "title": "Realm time is the saturating sum of ticks", "statement": "After any sequence of tick calls realm time is the left-to-right saturating i32 sum; it never wraps, never decreases for non-negative ticks, and applies do not change it.", "quantifier": "every sequence of ticks, including ones that overflow i32", "why_tests_cant": "overflow boundaries over arbitrary sequences", "anchors": ["client/rust/src/engine.rs:Engine::tick", "client/rust/src/time/mod.rs:Ticks"]}
{"id": "C19", "title": "Time warps compute the documented affine map", "statement": "TimeWarp::apply gives floor((parent-offset)*scale/1024) exactly whenever parent-offset and the result fit in i32; the default warp is the identity; the result is monotone in the parent time for non-negative scale whenever no overflow occurs. (Outside the i32 range the product wraps around instead of saturating: refuted there.)", "quantifier": "all i32 parent times, offsets and scales", "why_tests_cant": "2^96 inputs", "anchors": ["client/rust/src/time/mod.rs:TimeWarp::apply,Ticks Mul<TimeScale>,TimeScale"]}
{"id": "C20", "title": "Seconds conversions agree with ticks_per_second", "statement": "as_secs of n*ticks_per_second ticks is n. (False of the code: as_secs shifts by 10, i.e. divides by 1024, while ticks_per_second is 1000; the exact relation is proved.)", "quantifier": "all i32 tick values", "why_tests_cant": "the error only shows for large values", "anchors": ["client/rust/src/time/mod.rs:Ticks::as_secs,ticks_per_second"]}
{"id": "C21", "title": "Field iterators enumerate exactly the contract's ids", "statement": "state_iter/chan_iter yields, by repeated next, exactly one dynamic id per field, in order, with index i, the i-th declared type and the contract's handle, then None forever; size_hint is exact at every point; state_id(i)/chan_id(i) agrees with the i-th item. nth(n) skips n items and returns the next one. (The nth clause is false of the code; refuted.)", "quantifier": "every field list, every handle, every mix of next/nth/size_hint calls", "why_tests_cant": "all lengths and positions", "anchors": ["client/rust/src/contract/properties/mod.rs:prop_iter!", "client/rust/src/contract/mod.rs:Contract::state_iter,chan_iter,state_id,chan_id"]}
{"id": "C22", "title": "Channel::new sorts keyframes and loses none", "statement": "Channel::new returns a permutation of the given keyframes; if no keyframe time is NaN the result is in non-decreasing time order.", "quantifier": "every list of keyframes, whatever unstable sorting algorithm is used", "why_tests_cant": "all lists, all orders, ties", "anchors": ["client/rust/src/contract/properties/channels/channel.rs:Channel::new"]}
{"id": "C23", "title": "Channels stay sorted", "statement": "Every channel reachable through the API is in non-decreasing time order. (False: keyframes_mut and NaN times break it; refuted. Channels never touched through keyframes_mut and created without NaN stay sorted: proved.)", "quantifier": "every history of baseline operations", "why_tests_cant": "all histories", "anchors": ["client/rust/src/contract/properties/channels/channel.rs:Channel::keyframes_mut", "client/rust/src/baseline.rs:Baseline::channel_mut"]}
{"id": "C24", "title": "Dynamic properties compare and convert faithfully", "statement": "A dynamic property equals a static value (in either operand order) iff it holds that type and an equal value; converting a static value to a dynamic property and back gives the value, and converting to any other type fails; borrowing preserves type and value; prop_type is the declared type.", "quantifier": "all 28 property types and all values, NaN and -0.0 included", "why_tests_cant": "28x28 type pairs with unbounded values", "anchors": ["client/rust/src/contract/properties/dynamic/property.rs", "client/rust/src/contract/properties/dynamic/primitive.rs", "client/rust/src/contract/properties/dynamic/vec.rs", "client/rust/src/contract/properties/dynamic/eq_impls.rs", "client/rust/src/contract/properties/dynamic/from_impls.rs", "client/rust/src/contract/properties/dynamic/borrow_impls.rs"]}
{"id": "C25", "title": "Serialize then deserialize reproduces the object graph", "statement": "For any baseline and any set of its contracts closed under references, serializing each contract once, finishing, then registering and deserializing the same contracts yields a baseline whose contracts and objects correspond one-to-one to the original's, with every field equal up to that correspondence (references, including cycles and self references, point at corresponding objects and contracts) and nothing else in it.", "quantifier": "every reachable baseline, every object graph of any size and shape, every hash iteration order", "why_tests_cant": "cyclic graphs, iteration orders and sizes are unbounded", "anchors": ["client/serialize/rust/src/serializer/mod.rs:Serializer", "client/serialize/rust/src/deserializer/new/mod.rs:DeserializerBuilder,Deserializer"]}
{"id": "C26", "title": "Malformed buffers are rejected with an error", "statement": "Given any structurally valid flatbuffer, deserialization either succeeds with every object matching its contract's field count and types, or returns an error; it never panics. (The never-panics clause is false of the code, e.g. a state index out of range; refuted. The conformance clause is proved.)", "quantifier": "every flatbuffer value", "why_tests_cant": "adversarial inputs", "anchors": ["client/serialize/rust/src/deserializer/new/mod.rs:validate_obj_matches_contract,deserialize_obj_with_null,find_serialized_contract"]}
{"id": "C27", "title": "Objects of contracts that were not registered are reported", "statement": "If the buffer holds an object whose contract was not registered, deserialization errors, as its documentation says. (False of the code: such objects are silently dropped unless referenced; refuted.)", "quantifier": "every buffer and set of registered contracts", "why_tests_cant": "all buffers", "anchors": ["client/serialize/rust/src/deserializer/new/mod.rs:Deserializer::finish,objects_with_contract_idx"]}
{"id": "C28", "title": "Serialized type tags compare faithfully", "statement": "A flatbuffer type tag equals a property type iff they denote the same primitive type, for both tag enums and in both operand orders, and the two tag enums are equal iff they denote the same type. (The last clause is false of the code: U32/U64; refuted.)", "quantifier": "all tags and all property types", "why_tests_cant": "a finite but large table; one wrong arm is easily missed", "anchors": ["client/serialize/rust/src/types/eq_impl.rs", "client/serialize/rust/src/types/from_impl.rs"]}
{"id": "C29", "title": "Generated contract field ids match the declared layout", "statement": "For any struct accepted by #[states]/#[channels], the i-th declared field's accessor returns an id with index i, the contract's handle and the field's type, and enumerate_types/field_names list exactly the declared types and names in order; structs with reserved field names or without named fields are rejected.", "quantifier": "every struct declaration with any number of fields", "why_tests_cant": "code generation over all inputs", "anchors": ["client/contract_macro/src/lib.rs"]}
{"id": "C30", "title": "Exported symbol names are unique per path", "statement": "remangle gives different symbols to items at different paths. (False of the code: the encoding of :: by __ is not injective; refuted; it is injective on paths whose segments contain no underscore, proved.)", "quantifier": "all path strings", "why_tests_cant": "string space is infinite", "anchors": ["crates/rsharp/rust/macro/src/remangle.rs:mangle_path", "crates/rsharp/rust/macro/src/substitute.rs"]}
{"id": "C31", "title": "Tweening stays between its end points", "statement": "Easing a jump-tweened or int-tweened value gives the start value at time 0, the end value at time 1, and a value between the two for times in between. Later times never take an ascending value further back, and the value reached is time * distance, rounded down, within a relative error of 2^-22 and at most u32::MAX. (The first part is false of the code for descending integers and for jump tweens at negative times; refuted.)", "quantifier": "all values and times", "why_tests_cant": "all float times and integer pairs", "anchors": ["client/rust/src/contract/properties/channels/misc.rs"]}
{"id": "C32", "title": "Baselines only grow", "statement": "No public operation ever makes a state or channel handle stop resolving: state and channel arenas only grow, so every handle bound once stays usable for the life of the baseline (equivalently, removed objects' fields are leaked).", "quantifier": "every history of public operations", "why_tests_cant": "all histories", "anchors": ["client/rust/src/baseline.rs:Baseline::state_remove,channel_remove,object_remove"]}
{"id": "C33", "title": "Serialization covers each object once and is read-only", "statement": "A successful serialize(contract) appends exactly one object record per handle in the contract's object set, each with one state record per field carrying that field's current value (references as indices), and never alters the baseline; it fails without panicking if the handle is not live, a field type is a vector, or a listed object no longer exists.", "quantifier": "every reachable baseline, contract, and hash iteration order", "why_tests_cant": "all baselines and orders", "anchors": ["client/serialize/rust/src/serializer/mod.rs:Serializer::serialize,serialize_contract,finish"]}
{"id": "C34", "title": "Deserialization matches contracts by id and field layout", "statement": "register_contract on a deserializer selects the first serialized contract whose name, version, field names and field types all equal the contract's, and fails if there is none or the contract is already registered.", "quantifier": "every buffer, every contract type", "why_tests_cant": "all buffers", "anchors": ["client/serialize/rust/src/deserializer/new/mod.rs:find_serialized_contract,DeserializerBuilder::register_contract"]}
{"id": "C35", "title": "Colours packed for the platform can be unpacked", "statement": "The Unity demo's packing of four 16-bit colour channels into a 64-bit integer is injective. (False of the code: 32-bit shifts alias channels; refuted.)", "quantifier": "all colours", "why_tests_cant": "2^64 inputs", "anchors": ["demos/unity_states/unity/Assets/Scripts/BallStateDataSourceUnity.cs"]}
{"id": "C36", "title": "Handles are tied to the baseline that issued them", "statement": "A state handle obtained from one baseline of a realm is rejected by the other baseline. (False of the code: handles carry no baseline identity, and two baselines with the same operation history issue identical handles; refuted and characterised.)", "quantifier": "every pair of baselines and every history", "why_tests_cant": "all histories of both baselines", "anchors": ["client/rust/src/baseline.rs:Baseline::state", "crates/datastructures/arena/src/lib.rs:Index", "client/rust/src/realm.rs:Realm"]}
{"id": "C37", "title": "Arena iterators, indexing and conversions", "statement": "Whatever the history of an arena, its iterators answer next, next_back and len in any interleaving exactly as the list of live (handle, value) pairs in handle order would, are fused and never panic; iter_mut changes exactly the visited elements to what the client stored; arena[h] panics iff get(h) is None; collecting a sequence into an arena and iterating it back by value gives the same sequence whatever the size hint.", "quantifier": "all histories, all interleavings of next/next_back of any length, all updates, all sequences and size hints", "why_tests_cant": "unboundedly many interleavings over unboundedly many arena shapes", "anchors": ["crates/datastructures/arena/src/lib.rs:Iter", "crates/datastructures/arena/src/lib.rs:IterMut", "crates/datastructures/arena/src/lib.rs:FromIterator", "crates/datastructures/arena/src/lib.rs:core::ops::Index"]}
{"id": "C38", "title": "The circle game: every schedule moves and draws each circle on its own", "statement": "For every grid size and every sequence of frames (random_walk and sync_transforms in any order, visiting existing entities in any order with any random numbers), the game starts up, never panics, keeps exactly size*size distinct objects in the fork, and each circle's stored x and y are exactly the result of its own visits and its drawn position exactly what its own last synchronisation saw; the main baseline is never touched; a full synchronisation makes the drawn and the stored positions equal. In numbers: circles start exactly 50 apart, centred on the origin (grids up to 671088); a visit moves a coordinate to the f32 nearest to its old value + 2*rand - 1, rounding once; and for random numbers as rand yields them every stored and drawn coordinate stays finite, at most min(2^24, 25*size + its number of moves) from the centre.", "quantifier": "all grid sizes, all frame sequences of any length, all visiting orders, all random numbers (f32 bit patterns, including NaN and infinities)", "why_tests_cant": "the schedule, the visiting order and the random numbers are unbounded and chosen by Bevy and rand", "anchors": ["demos/circle_game/src/lib.rs:configure_realm", "demos/circle_game/src/lib.rs:setup", "demos/circle_game/src/lib.rs:random_walk", "demos/circle_game/src/lib.rs:sync_transforms", "demos/circle_game/src/circle.rs:Circle", "demos/circle_game/src/components.rs", "demos/circle_game/src/lib.rs:offset_and_scale"]}
{"id": "C39", "title": "The Unity demo's platform object mirrors the Unity object", "statement": "For every sequence of frames and whatever Unity reports, starting the platform data source and synchronising it never panics, and afterwards each of the ten platform fields reads exactly what the last frame able to report it reported (zero before that); no field disturbs another, a missing material spoils only the colour, an unassigned synchroniser changes nothing. Angles are stored as completed whole degrees and colour channels in [0,1] as 16-bit numbers next to 65535 times the channel, whatever the language leaves unspecified. (Also shown: BallContract.ObjectRemove always panics and first removes the object whose raw index equals the contract's.)", "quantifier": "all frame sequences of any length, all f32 bit patterns, all choices for unspecified float-to-integer casts", "why_tests_cant": "unboundedly many frames over 2^320 inputs each", "anchors": ["demos/unity_states/rust/src/lib.rs", "demos/unity_states/cs/src/BallContract.cs", "demos/unity_states/unity/Assets/Scripts/BallStateDataSourcePlatform.cs", "demos/unity_states/unity/Assets/Scripts/BallStateDataSourceUnity.cs", "demos/unity_states/unity/Assets/Scripts/BallStateDataSourceSynchronizer.cs", "client/rust/src/baseline.rs:c_api"]}
{"id": "C40", "title": "Managed wrappers follow single ownership over native memory", "statement": "In C#, every native box is owned by exactly one wrapper; Dispose/finalization frees it once; passing a wrapper to a constructor or setter that takes ownership moves it away (the wrapper becomes null); using a null wrapper throws without effect; wrappers marked SharedRef never free and are refused by mutating methods. A program that moves only what it owns, stops using views once their owner is disposed, moved or reallocated, and keeps arguments alive is never a double free, use after free or type confusion, and leaks nothing once all wrappers are disposed. (False as documented in these cases, each refuted for every state: vectors are never freed; assigning a borrowed Value frees interior memory; ExampleContract.ObjectRemove then Dispose frees twice; BallContract.ObjectCreate and the vector's indexer pass the wrong pointer; a wrapper finalized during its last call is used after free; a read-only state can be written.)", "quantifier": "all programs (any sequence of calls of the wrapped API, Dispose and aliasing, with caught exceptions), all interleavings of garbage-collector finalizers with calls, and all choices of when native containers reallocate", "why_tests_cant": "The bugs appear only for particular interleavings of finalizers, disposals and reallocations; a test that double-frees may pass, and no run shows the absence of such an order.", "anchors": ["crates/rsharp/cs/src/RSharp.cs: OpaqueWrapper, SharedWrapper, Dispose, StealInner", "client/codegen_wrapped/opaque_template.cs.tpl", "client/codegen_wrapped/state.cs.tpl", "client/codegen_wrapped/keyframe.cs.tpl", "client/cs/src/Baseline.cs", "client/cs/src/StateAccessors.cs", "client/cs/src/RVec_Keyframe.cs", "client/contract_example/cs/src/ExampleContract.cs", "demos/unity_states/cs/src/BallContract.cs", "crates/rsharp/rust/src/rvec.rs"]}
{"id": "C41", "title": "A deserialized baseline is an ordinary baseline", "statement": "Whatever buffer a baseline is deserialized from, in whatever order its contracts and objects are read and whichever of those reads fail, a successful finish returns a baseline that the public API could have built from an empty one of the requested kind without a panic; so it satisfies every consistency property API-built baselines satisfy, and saving and loading any number of times never yields a baseline outside that set.", "quantifier": "all buffers, contract sets, orders of registration and object reading including failed ones, iteration orders of the fix-up tables, and all interleavings of loading with API use", "why_tests_cant": "Tests compare a few round trips; that no buffer, however malformed, yields a baseline outside the API-reachable set is a statement about all buffers and histories.", "anchors": ["client/serialize/rust/src/deserializer/new/mod.rs: DeserializerBuilder, Deserializer::finish", "client/rust/src/baseline.rs: Baseline"]}
{"id": "C42", "title": "Float views of times and scales are correctly rounded", "statement": "TimeScale::as_f64 is exactly n/1024 for every scale and preserves order strictly; Ticks::as_secs_f32 and TimeScale::as_f32 are n/1024 rounded once to the nearest f32 (ties to even), never NaN or infinite, weakly order preserving, exact exactly for values of at most 24 significant bits, and never off by more than 64 ticks. as_secs is the floor of as_secs_f32 only within 2^24 ticks.", "quantifier": "all i32 tick counts and scales", "why_tests_cant": "There are 2^32 inputs, pairs of them matter for order, and rounding errors occur only at particular bit patterns.", "anchors": ["client/rust/src/time/mod.rs: Ticks::as_secs_f32, Ticks::as_secs, TimeScale::as_f32, TimeScale::as_f64"]}
{"id": "C43", "title": "Text survives the trip between C# and Rust", "statement": "new RString(s).Value == s for every C# string s that is well-formed UTF-16, the native string being the UTF-8 encoding of the same text; other strings never abort the process but come back with unpaired surrogates replaced; the native constructors accept exactly valid UTF-8 / UTF-16 and every native string is read back exactly.", "quantifier": "all C# strings (any code units, any length), all byte strings, all texts", "why_tests_cant": "there are infinitely many strings and the interesting ones (surrogates, overlong forms, boundaries between encoding lengths) are scattered; the test suite tries one ASCII word", "anchors": ["crates/rsharp/cs/src/RString.cs: RString(string), Value", "crates/rsharp/rust/src/string.rs: String__value, String__copy_utf8, String__copy_utf16"]}
{"id": "C44", "title": "The C API shows the engine faithfully", "statement": "Through the exported C functions of the client and of the example contract library: a created object shows exactly the nine values it was created with; what is seen of an object lasts until the program writes that very field or gives up a box; a write never fails on an object that can be read and changes one field only; creation succeeds exactly when the baseline knows the contract; registration works once per baseline; ContractData__objects lists exactly the objects of the baseline, each once, and the list stays as it is; objects can be removed.", "quantifier": "all client programs (any sequence of calls on any pointers), all values, any number of baselines and objects", "why_tests_cant": "the claims range over every sequence of calls and every aliasing of boxes and borrowed pointers; a test makes one sequence", "anchors": ["client/rust/src/baseline.rs: c_api (Baseline__*)", "client/rust/src/contract/mod.rs: c_api (ContractData__objects, ContractData__id, ContractId__*)", "client/rust/src/object.rs: c_api", "client/rust/src/contract/properties/states/mod.rs: c_api (State__*)", "client/rust/src/contract/properties/states/id.rs: c_api", "client/contract_example/rust/src/lib.rs: ExampleContract__*", "client/contract_example/rust/src/states.rs: ExampleStates__*"]}
{"id": "C45", "title": "Keyframe lists and channels over the C boundary are plain lists", "statement": "A C program that owns each thing once and uses only the exported box, keyframe, vector and channel functions observes exactly what plain lists would show: pushed keyframes are read back by index with their values and times, setting one replaces one, a channel made from a list lists the same keyframes in time order; it never meets undefined behaviour, aborts exactly on an index out of range, and leaks nothing but the arrays returned by Channel__keyframes. A pointer to an element survives a push exactly when there was spare capacity. The C# list class indexes and appends (keyframes that are owned) accordingly, ending the process on a bad index.", "quantifier": "all client programs over any number of boxes, keyframes, vectors and channels of all primitive types; all values and times; all sort implementations meeting the sort's contract", "why_tests_cant": "claims over every program and every list length; the only test of this class is commented out because it crashes", "anchors": ["crates/rsharp/rust/src/rvec.rs: rvec_fns", "client/rust/src/contract/properties/channels/channel.rs: c_api (Keyframe_*, Channel_*)", "client/cs/src/RVec_Keyframe.cs: RVec_Keyframe_U8", "crates/rsharp/cs/src/RVec.cs"]}
{"id": "C46", "title": "The substitute macro puts its value in place of every placeholder", "statement": "Expanding #[substitute(v)] on an item gives the item with v for every placeholder call substitute!(..) in expression position that carries no attribute, and with v's text for the placeholder text in every attribute, and nothing else changed; no placeholder expression is left; it always ends unless v itself contains a placeholder below its root and the item contains one (then it never ends); it panics exactly when an attribute with the value in it is no token sequence. In particular, on the repository's modules marked with #[remangle(substitute!())], the exported symbols are exactly the given path, mangled, followed by the identifier of each marked item. (Replacement in attributes is textual: names ending in substitute, string literals and mixed spellings are rewritten wrongly or not at all; shown.)", "quantifier": "all items (syntax trees of any size), all values, all attribute texts, all tokenizers", "why_tests_cant": "the four test cases fix the item and the value; the claim is about every tree, every text and termination", "anchors": ["crates/rsharp/rust/macro/src/substitute.rs:VisitAndSub", "crates/rsharp/rust/macro/src/substitute.rs:substitute", "crates/rsharp/rust/macro/src/remangle.rs:remangle", "client/rust/src/object.rs:c_api"]}
{"id": "C47", "title": "The C# bindings show the engine's values faithfully", "statement": "In any C# program over the bindings: a call that throws has no effect, and it throws exactly when an argument was disposed or moved, is shared where mutation is wanted, or is not owned where ownership is wanted; owned wrappers always have a live native box of their class, each its own, so a call whose arguments are all owned is never undefined behaviour; reading a field gives what the C API shows; after assigning, the program reads the assigned value, and every other field, state and value as before; fields and states keep their values until they are assigned; IsMain answers what the baseline was made with; a contract registers once per baseline (a second time the process dies); Dispose always returns and is idempotent. (False of the code, shown: ExampleContract.ObjectCreate passes two arguments too few and is always undefined; writing through a state lent for reading, using a state lent before a later mutable loan, and using a borrowed baseline after its owner was disposed are undefined without an exception; handle wrappers have no identity.)", "quantifier": "all C# programs (sequences of binding calls, exceptions caught, finalizers anywhere), all values, any number of baselines, objects, states", "why_tests_cant": "the C# tests run four fixed programs; the claims are about every program and every interleaving with the finalizer", "anchors": ["client/cs/src/Baseline.cs:Baseline", "client/cs/src/StateBindings.cs:Baseline", "client/cs/src/StateAccessors.cs:Baseline", "client/cs/src/Contract.cs:ContractData", "crates/rsharp/cs/src/RSharp.cs:OpaqueWrapper", "client/codegen_wrapped/state.cs.tpl", "client/contract_example/cs/src/ExampleContract.cs:ExampleContract"]}
{"id": "C48", "title": "The code generators write every class, completely, or say so; and do not overwrite unasked", "statement": "When client/codegen_wrapped ends with success, every class of every type is in the output directory, complete: each template renders for every possible type record, with balanced braces, no template marks left and the class declared under its own name. When it fails, then because an operation on the file system failed or because the directory was not empty and -f was not given; for each kind of class the files before the failing one are complete, that one is as before or a prefix, and later ones are as before. Other files are never touched. Without -f a directory that has files is refused and left alone (provided the existence test itself works: it answers 'no' when it fails). A second run without -f is refused; with -f it reproduces the same files. The same for crates/rsharp/codegen, whose failures while rendering panic.", "quantifier": "every initial content of the output directory, every sequence of failing file operations (including writes that stop in the middle), every type record a template can be given, with and without -f", "why_tests_cant": "a test runs the generator on one directory without faults; the claim is about every content, every failing operation and every write cut off at any character", "anchors": ["client/codegen_wrapped/src/main.rs: main", "client/codegen_wrapped/src/lib.rs: Codegen::new, render_to_file, ClassData", "client/codegen_wrapped/src/type_info.rs: PrimitiveType::types", "client/codegen_wrapped/*.cs.tpl", "crates/rsharp/codegen/src/codegen.rs: Codegen", "crates/rsharp/codegen/rbox.cs.tpl"]}
{"id": "C49", "title": "Every native function the C# code uses is exported, is unambiguous, and is used as declared", "statement": "Each native function named in the hand-written C# (Baseline, StateAccessors, StateBindings, Contract, ObjectHandle, RVec_Keyframe, ExampleContract, BallContract, BallStates) and in each generated class is exported by the native library, and no two exports have the same name even when underscores and capitals are ignored, so the names CppSharp gives them cannot clash. Each call passes as many arguments as the function takes; pointers to scalars are cast to the C# pointer type of that scalar; a result wrapped as Ptr<T> is a pointer to a native T; and its ownership label (Owned, SharedRef, MutRef) is that of the native signature. A generated class uses, in order, exactly the functions of its own kind and type. The functions RString.cs and the box classes declare by hand are exported under that very name with those C types. The type lists of the Rust macros and of the C# generators agree. Each argument is what the function takes: a box is given away where the function consumes it, a reference is lent where it borrows, the wrapper class is that of the native type, and numbers have the C type of the parameter. A class's members call the functions of the same name.", "quantifier": "every use of a native function in the C# sources and in the generated classes, against all 448 exported functions", "why_tests_cant": "a missing or misnamed symbol only shows when that very binding is first called at run time; mismatched casts corrupt memory silently; the claim is about all bindings of all types at once", "anchors": ["client/cs/src/*.cs", "client/contract_example/cs/src/ExampleContract.cs", "demos/unity_states/cs/src", "client/codegen_wrapped/*.cs.tpl", "crates/rsharp/cs/src/RString.cs", "crates/rsharp/codegen/rbox.cs.tpl", "client/rust/src (every #[ffi_export])", "crates/rsharp/rust/src"]}
{"id": "C50", "title": "Running the P/Invoke generator replaces the bindings and nothing else", "statement": "The generator program finds the project from the place of its own assembly, for every configuration, framework and platform folder, and refuses arguments without doing anything. However it ends, it changes only files below the three binding directories and, beside the native libraries, files with the name chosen in CONSTELLATION_DLLIMPORT_NAME (default unity_states); the directories are apart from each other, from those of the wrapper generator and from the native libraries. If it succeeds, each binding directory holds exactly what CppSharp wrote in this run. Before CppSharp runs for a crate, each native library of that crate (.so, .a, .dylib, .dll) has been copied to the chosen name with its extension and prefix, and nothing else has changed. It works wherever the project lies, and the copies do not affect other build steps.", "quantifier": "every project path, file system, chosen name and behaviour of CppSharp", "why_tests_cant": "the file names, the place of the project, stale files and the order of the crates vary from machine to machine; a test sees one of each", "anchors": ["client/codegen_pinvoke/Main.cs"]}
{"id": "C51", "title": "Any file may be handed to the loader: it is rejected, or every access stays inside it", "statement": "Loading a saved baseline from bytes of any origin ends in an error or in tables all of which lie inside the bytes; the reader never looks outside them and never panics while reading. What an accepted file holds is proper: at most a million tables, numbers within their widths, text that is UTF-8, and no more than 2^31 bytes of text and list entries in all, although a file may refer to the same bytes many times; so is every value of a baseline loaded from it. Appending bytes to an accepted file changes nothing; cutting it off anywhere (a crash during the write) gives an error or the complete contents, never a part. A file that is not of this format is rejected.", "quantifier": "every finite sequence of bytes, every cut point, every continuation", "why_tests_cant": "the inputs are all byte strings; a fuzzer samples them, and a crash point can be any prefix", "anchors": ["client/serialize/rust/src/deserializer/new/mod.rs (Builder::new)", "client/serialize/flatbuffers/*.fbs"]}
{"id": "C52", "title": "What is saved can be loaded, down to the bytes", "statement": "If serializing a selection of contracts succeeds, the result is a sequence of bytes that starts with the root offset and \"TPF1\" and from which the generated readers read back exactly the tables that were serialized: every number, float bit pattern, text, list and reference. The file is accepted by the loader, and loading it into a new baseline restores the selection as in C25.", "quantifier": "every baseline history, every selection of contracts and order of their objects, every iteration order of the hash maps", "why_tests_cant": "alignment, vtable sharing and offsets depend on everything written before; a test sees a few layouts of unboundedly many", "anchors": ["client/serialize/rust/src/serializer/mod.rs", "client/serialize/rust/src/deserializer/new/mod.rs", "client/serialize/flatbuffers/*.fbs"]}
{"id": "C53", "title": "A mutable dynamic view writes through to the viewed value only", "statement": "A mutable dynamic view (of a DynTpProperty, of a static value or vector, of a slice of a vector, or of a state through a dynamic state handle) has the type of the value it was taken of and shows that value, as an immutable reference would; a dynamic handle gives one exactly when it gives an immutable reference, with the same error otherwise. An assignment through it is possible exactly for values of its type, replaces exactly that value (or that element of the vector, panicking out of range) and changes nothing else: no other variable, state, channel, object or contract. However many writes are made through a view, the value's type and a vector's length stay the same, and a view of a slice leaves the rest of the vector alone. Two views compare equal iff the values they show do.", "quantifier": "every reachable baseline, every set of variables, all 28 property types, every value, every slice, every sequence of writes", "why_tests_cant": "28 types, unbounded vectors and histories; a wrong variant or place shows only in particular combinations", "anchors": ["client/rust/src/contract/properties/dynamic/property.rs:DynTpPropertyMut", "client/rust/src/contract/properties/dynamic/borrow_impls.rs:BBorrowMut", "client/rust/src/contract/properties/dynamic/from_impls.rs", "client/rust/src/contract/properties/states/dyn_state.rs:DynStateMut", "client/rust/src/contract/properties/states/dyn_handle.rs:DynStateHandle::get_mut"]}
{"id": "C54", "title": "A loaded baseline is a baseline like any other; saving and loading can be repeated for ever", "statement": "Whatever a deserializer returns is a baseline that ordinary calls on a new baseline could have built, with exactly the contracts that were registered, and it answers every further call as such a baseline does. A selection that can be saved and loaded once can be saved and loaded any number of times, through tables or through files: each generation is a copy of the original, as faithful as the first, and can be saved again. Only the first time changes values (-0.0 becomes 0.0).", "quantifier": "every buffer, every history of the original, every selection, every number of generations, every order of contracts, objects and hash map iteration in each of them", "why_tests_cant": "A test saves and loads once or twice; that no number of generations loses something, and that nothing tells a loaded baseline from an ordinary one, is about all histories before and after.", "anchors": ["client/serialize/rust/src/deserializer/new/mod.rs:DeserializerBuilder::new, register_contract, Deserializer::deserialize, finish", "client/serialize/rust/src/serializer/mod.rs:Serializer::serialize, finish", "client/rust/src/baseline.rs:Baseline"]}
{"id": "C55", "title": "Whatever a baseline holds was handed to it by a call", "statement": "After any sequence of calls on a new baseline, used well or badly (wrong contract, stale handles, calls that fail), every value in a state and every keyframe in a channel was handed over by one of these calls: as an initial value of a new object or in a later write. From any state on, what is found at a place later was there before or was handed over since.", "quantifier": "every sequence of calls on a baseline, every handle", "why_tests_cant": "A value that appears from nowhere (another object's, a default, one left over from a removed object) shows up only in the histories that reuse the slot; a test has a few of them.", "anchors": ["client/rust/src/baseline.rs:Baseline::object_create,state_mut,channel_mut,object_remove,unregister_contract", "client/rust/src/contract/properties/states/mod.rs:StateArenaMap"]}
{"id": "C56", "title": "The build script puts every artifact where Unity looks for it, and leaves the checkout as it was", "statement": "From a fresh checkout, after any history of complete, failed or killed runs of client/build_mac_host.sh with any arguments, on any Mac, with changing sources: a run that reaches its end leaves every native-library link of the Unity project opening the library just built for that platform (in the profile asked for) if it was asked for, what it opened before otherwise, an empty file if it opened nothing; a run stopped anywhere never leaves a link on a half-written library; the links to assemblies open the assemblies just built; and, outside the build directories and generated sources, no file is changed, renamed or lost.", "quantifier": "every history of runs, every argument list and environment, both host architectures, every point at which a run is killed or a command fails, every toolchain that writes in its own directories only", "why_tests_cant": "The script runs only on a Mac with the whole toolchain; a test could try a few options on a fresh checkout, not all histories, failures and kill points.", "anchors": ["client/build_mac_host.sh", "demos/unity_states/unity/Assets/Plugins (symbolic links)", "client/codegen_pinvoke/codegen.csproj"]}
{"id": "C57", "title": "An Android build of the Unity demo packages the native libraries that were built", "statement": "When Unity builds the demo for Android, the editor script replaces, in the Gradle project, the copies of symbolic links by plain files: if the build gets past the script, then for each architecture (arm64-v8a, armeabi-v7a) the packaged libunity_states.so is a plain file whose contents are what the link in Assets/Plugins/Constellation/Android opens. After any history of script runs, Unity's own work and Android builds (complete or interrupted), a complete run of build_mac_host.sh with -a followed by an Android build packages the libraries just built, in the profile asked for. Expected as well, and false: an Android build without a preceding build for Android is refused; instead the empty placeholders (or older libraries) are packaged silently. The script changes nothing but these files; it gets past exactly if the links open something and the Gradle project has the directories; with no settings object, or several, it fails without changing anything; a build stopped half-way does not prevent the next.", "quantifier": "All histories from a fresh checkout of script runs (any arguments, environment, Mac, toolchain), changes by Unity to its own directories, and Android builds, each complete or stopped anywhere; all Gradle project directories within Unity's own; all file systems reached.", "why_tests_cant": "The result depends on what earlier runs and builds, possibly interrupted, have left behind the links; a test sees one history.", "anchors": ["demos/unity_states/unity/Assets/Plugins/Constellation/Editor/ConstellationBuildPreprocessor.cs: OnPostGenerateGradleAndroidProject", "demos/unity_states/unity/Assets/Plugins/Constellation/Editor/ConstellationBuildSettings.cs: GetDefaults", "demos/unity_states/unity/Assets/Plugins/Constellation/ConstellationBuildSettings.asset", "client/build_mac_host.sh"]}
{"id": "C58", "title": "Release builds and debug builds compute the same", "statement": "A release build (build_mac_host.sh -r) checks neither integer overflow nor debug assertions. Whatever a debug build computes without panicking, a release build computes too: integer tweens, `nth` on field iterators, saving a contract and finishing a save (whose debug assertion never fires, after any calls). Where a debug build panics because of an overflow, the release build does the following. A tween takes the distance around the circle of the type's values: a descending unsigned one starts and ends at the right values but in between is never between them; an ascending signed one whose end points are too far apart never moves. Saving never panics: the 65536th contract is saved with its right index, and the objects of every later one silently get the index of another contract (n modulo 65536). `nth` with an overflowing position returns an item (of the wrong field, C21) although fewer remain, and panics only at the end of the iterator.", "quantifier": "All integer types, end points and times; all histories of a baseline, all sequences of save calls in either build, all iteration orders; all contracts, iterator positions and counts.", "why_tests_cant": "Tests are compiled in debug mode, where the overflow checks are on; a release build differs exactly on inputs on which every test would panic, and there are too many of these to enumerate.", "anchors": ["Cargo.toml: profile.release", "client/build_mac_host.sh: -r", "client/rust/src/contract/properties/channels/misc.rs: IntTweenable::ease", "client/rust/src/contract/properties/mod.rs: prop_iter nth", "client/serialize/rust/src/serializer/mod.rs: serialize, finish"]}
{"id": "C59", "title": "Handles, ids and contract ids can be kept as keys of maps and sets", "statement": "For arena handles, field ids, dynamic state handles, contract ids and buffer positions, == holds exactly between identical keys, equal keys feed the hasher the same bytes and different keys never do. Hence a hash map or hash set keyed by them answers every history of get, insert, remove, growth and iteration as a finite map would, whatever the hash function; and the two-way maps of the serializer and the deserializer answer every history of insert, insert_no_overwrite, get_by_left and get_by_right as a plain one-to-one list of pairs.", "quantifier": "all keys of each kind, all hash functions, all initial sizes, all histories of calls of any length, all values", "why_tests_cant": "hash functions are randomly seeded and collisions depend on the seed and on the history", "anchors": ["crates/datastructures/arena/src/lib.rs:Hash for Index", "client/rust/src/contract/mod.rs:ContractId", "client/rust/src/contract/properties/states/id.rs:StateId", "client/rust/src/contract/properties/states/dyn_handle.rs:DynStateHandle", "client/serialize/rust/src/types/mod.rs", "client/serialize/rust/src/serializer/handle_map.rs:HandleMap"]}
{"id": "C60", "title": "Clients can submit collactions, and engines neither make, copy nor change them", "statement": "A program using the engine can submit a collaction; engines never invent, duplicate or alter collactions: those that exist are exactly the ones that were built, less the ones dropped, queued in a dropped engine or lost to a panic, each with as many actions as it was built with, and with the very same actions if the program does not edit them; what try_apply/apply_timeout hands back was sent. (The first part is false of the code for any program outside the crate: Collaction has no public constructor, so no such program, whatever it does with any number of engines, ever holds one; nothing is ever sent and every apply finds the queue empty or disconnected; refuted.)", "quantifier": "all programs over any number of engines and senders, all interleavings, all capacities, panics and drops included", "why_tests_cant": "a test shows one program; this is about what no program can get hold of, and about every interleaving of sends, applies, panics and drops over many engines", "anchors": ["client/rust/src/action/mod.rs: Collaction, actions, actions_mut", "client/rust/src/engine.rs: Engine::new, try_apply, apply_timeout, ActionSender"]}
{"id": "C61", "title": "A baseline stays usable after a caught panic", "statement": "A program may catch a panic of a baseline operation (catch_unwind, or a lock whose poisoning it ignores) and go on using the baseline: contract ids stay unique, handles stay typed, stale handles stay stale, states and channels stay, objects keep their data and contract, registering and creating work as before, no operation but unregister_contract ever panics, and every live object is still listed by its registered contract. (The last clause is false of the code: a panicking unregister_contract has already emptied the contract's object set and removed some objects, exactly which is proved; whenever a contract with fields has two live objects one of them stays live but unlisted, a second unregister_contract then succeeds and leaves it without a contract, for ever; refuted. The clause holds exactly when no object of the contract is left.)", "quantifier": "all baselines reachable by any history of public operations with any number of caught panics, all contract types, all iteration orders of the object set, all continuations", "why_tests_cant": "what a panic leaves behind depends on the hash set's iteration order and on the whole history; that nothing else breaks is a statement about all continuations", "anchors": ["client/rust/src/baseline.rs: unregister_contract, object_remove, register_contract, object_create"]}
{"id": "C62", "title": "object_create and the iterators passed to it", "statement": "object_create takes its values from iterators of the caller, which may be endless, report any size, or panic. The call always returns, after asking each iterator at most once more than the contract has fields; what it would give later does not matter; an iterator that ends behaves like the vector of its items; all of the caller's code runs before anything is changed, so a call that fails or panics leaves the baseline as it was; it succeeds exactly when each iterator gives one item of each field's type in order and ends; and it reports an error, without panicking, whenever the items do not match the contract and the iterators do not panic themselves. (The last clause is false of the code: it allocates a vector of the size the iterator reports, and the standard library's endless iterators report usize::MAX, so that repeat(..) panics for every registered contract; refuted. It holds for iterators whose reported size can be allocated; exactly when the call panics is proved.)", "quantifier": "all baselines reachable with any caught panics, all contracts, all iterators (any sequence of results of next, any size hint, panicking or endless ones included)", "why_tests_cant": "an iterator is arbitrary code of the caller: endless, lying and panicking ones cannot be enumerated, and termination on every endless one cannot be observed", "anchors": ["client/rust/src/baseline.rs: object_create, check_types!"]}
{"id": "C63", "title": "A serialize call that fails", "statement": "serialize reports an error for a contract that is not live, that has a vector field, or (having fields) that lists a removed object. A program may ignore the error and go on: later calls are unaffected, none panics, and finish writes exactly the contracts and objects that were accepted, with all their references, or panics if one of them refers to something not written. The file holds the bytes of the failed attempts too, but is well formed and loads to exactly that (within the limits of C52). Trying the same contract again gives the same answer, whatever was serialized in between and in whatever order the objects come. A failed call writes nothing. (The last clause is false of the code: it holds exactly for the first two errors. Because object_remove leaves the handle of a removed object in the contract's object set, the third error is reported after the contract's description and the objects iterated before the removed one have been written; the finished buffer then holds the contract with an arbitrary part of its objects, which part depends on the hash set's iteration order; refuted for every contract with fields that lists a removed object.)", "quantifier": "all disciplined histories of a baseline, all lists of contracts passed to serialize (dead handles, vector contracts and contracts with removed objects included), all iteration orders, all serializer states under 65535 contracts", "why_tests_cant": "what a failed call leaves behind depends on the hash set's order and on the removals of the whole history; that everything else still comes out right is a statement about every combination of failing and succeeding calls", "anchors": ["client/serialize/rust/src/serializer/mod.rs: Serializer::serialize, Serializer::finish", "client/rust/src/baseline.rs: object_remove"]}
{"id": "C64", "title": "A load that fails half-way", "statement": "deserialize_objects reports an error or panics when an object of the contract cannot be read. A program may ignore the errors, catch the panics, ask again, go on with other contracts and finish: what failed has no influence on the calls for other contracts (each succeeds exactly if every object of its contract can be read, whatever failed before); the finished baseline holds, of every contract that was asked for, exactly the objects up to the first one that cannot be read, complete and with all their references leading to the objects they should; finish never panics, and succeeds exactly if none of these objects refers to something outside them; the baseline it returns is one that ordinary calls could have built. Unless a call that asks again panicked, each object is there once, and neither the order of the calls nor asking again makes a difference. A failed load loads nothing, and asking again loads nothing twice. (The last sentence is false of the code: the objects before the bad one stay and come out of finish; and asking again for a contract whose first object holds no references makes another copy of that object before the panic, which finish then returns; both refuted. Objects with references are never copied: proved.)", "quantifier": "all buffers (malformed ones included; those in which no two fields share a reference state for the exact statements), all registered contracts, all sequences of deserialize_objects calls with any errors ignored and any panics caught, all iteration orders", "why_tests_cant": "what is left behind depends on where in the buffer the bad object is, on which contracts were asked before and on what the objects refer to; no finite set of damaged files covers it", "anchors": ["client/serialize/rust/src/deserializer/new/mod.rs: DeserializerBuilder::register_contract, Deserializer::deserialize_objects, Deserializer::finish", "client/serialize/rust/src/deserializer/new/objects.rs: add_object", "client/serialize/rust/src/deserializer/new/states.rs: track_obj_reference"]}
{"id": "C65", "title": "Handles and times can be kept in order: sorted lists, ordered maps and sets", "statement": "The comparisons of object, contract, state and channel handles, and of Ticks, ChannelTime and RealmTime, are one strict total order each: exactly one of a < b, a == b, a > b holds, it is transitive, partial_cmp always answers and agrees with cmp, ==, <, <=, >, >=, max and min. So an ordered map or set keyed by them (BTreeMap, BTreeSet) is a finite map whose listings, ranges, first and last entries are in ascending order, whatever was inserted or removed before and however the tree is balanced; listings forget the order of insertion; binary search in a sorted list finds a key exactly when it is there. Sorting handles gives the order in which the arena that issued them is iterated; of two handles issued for one slot the later is the greater. Arithmetic on times keeps the order, strictly so where nothing saturates.", "quantifier": "all kinds of keys, all keys (any slot, any generation, any i32), all value types, all sequences of map operations with rebalancing anywhere at any time, all sorted lists, all arena histories and all permutations of their handles, all times and tick counts", "why_tests_cant": "the repository has no test of the orderings; a sort or a tree depends on transitivity and totality over every triple of keys and on every shape of the tree, which examples cannot cover", "anchors": ["crates/datastructures/arena/src/lib.rs: Index Ord, PartialOrd, PartialEq", "client/rust/src/time/mod.rs: Ticks, ChannelTime, RealmTime, Add, Sub, as_millis, as_secs"]}
