(** client/build_mac_host.sh: the script that builds the native library, the C# bindings
    and the DLLs for the Unity demo on a Mac; and the symbolic links of the Unity project
    (demos/unity_states/unity/Assets/Plugins) through which Unity sees the results.

    Paths are lists of names from the root of the checkout ($PLATFORM_DIR, line 25, taken
    to contain no white space, since the script does not quote it).  The commands that are
    programs of the project's toolchain (cargo, cross, dotnet) are a parameter of the
    execution ([programs] below; what is assumed of them: [toolchain] in BuildSpec.v); mkdir, touch, rsync and mv
    are modelled.  Dates of files are not modelled. *)
From Verif Require Export Base.
From Coq Require Export Strings.Ascii.
Import Coq.Strings.String.StringSyntax.
Open Scope string_scope.
Open Scope list_scope.
Open Scope nat_scope.

Definition path := list string.
Definition path_dec : forall a b : path, {a = b} + {a <> b} := list_eq_dec Coq.Strings.String.string_dec.

(** What a name of the file system stands for; contents are texts. *)
Inductive node : Type := File (v : string) | Dir | Link (target : list string).
Definition fs := path -> option node.
Definition put (p : path) (n : option node) (f : fs) : fs :=
  fun q => if path_dec q p then n else f q.

(** ** Options *)

Record flags : Type := mkFlags
  { f_android : bool; f_ios : bool; f_linux : bool; f_release : bool; f_rosetta : bool }.

(** build_mac_host.sh:13-19, one letter; another letter gives "?" (or, with the leading
    colon of the option string, nothing but "?"), which no case matches. *)
Definition letter (c : ascii) (o : flags) : flags :=
  let (a, i, l, r, w) := o in
  if Ascii.eqb c "a" then mkFlags true i l r w
  else if Ascii.eqb c "i" then mkFlags a true l r w
  else if Ascii.eqb c "l" then mkFlags a i true r w
  else if Ascii.eqb c "r" then mkFlags a i l true w
  else if Ascii.eqb c "w" then mkFlags a i l r true
  else o.
Fixpoint letters (s : string) (o : flags) : flags :=
  match s with
  | Coq.Strings.String.EmptyString => o
  | Coq.Strings.String.String c r => letters r (letter c o)
  end.

(** build_mac_host.sh:12 [while getopts ":ailrw" options]: the arguments up to the first
    one that is "--", "-" or does not begin with a hyphen. *)
Fixpoint getopts (args : list string) (o : flags) : flags :=
  match args with
  | Coq.Strings.String.String "-" s :: rest =>
      match s with
      | Coq.Strings.String.EmptyString => o
      | Coq.Strings.String.String "-" Coq.Strings.String.EmptyString => o
      | _ => getopts rest (letters s o)
      end
  | _ => o
  end.

(** Lines 7-8 set the profile; the four other variables are not initialised: they are
    what the environment says ([env]: is the variable set to something?). *)
Definition options (env : flags) (args : list string) : flags :=
  getopts args (mkFlags (f_android env) (f_ios env) (f_linux env) false (f_rosetta env)).

(** ** Commands *)

Inductive triple : Type :=
| MacArm | MacIntel | AppleIos | AndroidArm64 | AndroidArm | LinuxGnu.
Definition triple_name (t : triple) : string :=
  match t with
  | MacArm => "aarch64-apple-darwin"
  | MacIntel => "x86_64-apple-darwin"
  | AppleIos => "aarch64-apple-ios"
  | AndroidArm64 => "aarch64-linux-android"
  | AndroidArm => "armv7-linux-androideabi"
  | LinuxGnu => "x86_64-unknown-linux-gnu"
  end.
(** Line 9 (LIB_NAME) and the endings used in lines 43-53, 72, 83-84, 94. *)
Definition library (t : triple) : string :=
  match t with
  | MacArm | MacIntel => "libunity_states.dylib"
  | AppleIos => "libunity_states.a"
  | AndroidArm64 | AndroidArm | LinuxGnu => "libunity_states.so"
  end.
(** Lines 7-8 and 17. *)
Definition profile_dir (release : bool) : string := if release then "release" else "debug".

(** The programs called.  [Build cross release t]: [cargo] (or [cross]) [build --profile ..
    --target t -p unity_states]. *)
Inductive tool : Type :=
| Build (cross release : bool) (t : triple)
| CargoTest
| CargoRun (package : string)
| DotnetRestore
| DotnetRun (ios : bool)
| DotnetTest
| DotnetBuild (out : list string) (ios : bool).

Inductive command : Type :=
| Tool (dir : path) (t : tool)
| Rsync (src dst : path)
| MkdirTouch (dir : path) (file : string)       (* mkdir -p dir && touch $_/file *)
| Mkdir (dir : path)
| Touch (p : path)
| Mv (src dst : path).

Definition pinvoke_dir : path := ["client"; "codegen_pinvoke"].
Definition project : path := pinvoke_dir ++ ["codegen.csproj"].
Definition project60 : path := pinvoke_dir ++ ["codegen60.csproj"].
Definition project61 : path := pinvoke_dir ++ ["codegen61.csproj"].
Definition demo_dir : path := ["demos"; "unity_states"; "cs"; "src"].

(** Where a library is built, and where the script puts it (lines 43, 72, 83-84, 94). *)
Definition built_at (release : bool) (t : triple) : path :=
  ["target"; triple_name t; profile_dir release; library t].
Definition placed_at (t : triple) : path := ["target"; triple_name t; library t].
Definition copy (release : bool) (t : triple) : command := Rsync (built_at release t) (placed_at t).

Definition when (b : bool) (l : list command) : list command := if b then l else [].

(** Lines 34-43.  [host] is the answer of rustc (line 27), on a Mac. *)
Definition build_host (o : flags) (host : triple) : list command :=
  [ Tool [] (Build false (f_release o) host);
    Tool [] CargoTest;
    Tool [] (CargoRun "cs_codegen");
    Tool [] (CargoRun "rsharp_codegen");
    copy (f_release o) host ].
(** Lines 49-59. *)
Definition placeholders : list command :=
  [ MkdirTouch ["target"; triple_name MacArm] (library MacArm);
    MkdirTouch ["target"; triple_name AppleIos] (library AppleIos);
    MkdirTouch ["target"; triple_name AndroidArm64] (library AndroidArm64);
    MkdirTouch ["target"; triple_name AndroidArm] (library AndroidArm);
    MkdirTouch ["target"; triple_name LinuxGnu] (library LinuxGnu);
    Mkdir (demo_dir ++ ["bin"; "ios"]);
    Touch (demo_dir ++ ["bin"; "ios"; "client.dll"]);
    Touch (demo_dir ++ ["bin"; "ios"; "rsharp.dll"]);
    Touch (demo_dir ++ ["bin"; "ios"; "unity_states.dll"]) ].
(** Lines 63-95; line 31: [cargo] can build for iOS on an arm64 Mac. *)
Definition cross_compile (o : flags) (host : triple) : list command :=
  [ Mkdir ["target"; profile_dir (f_release o)] ] ++
  when (f_linux o) [ Tool [] (Build true (f_release o) LinuxGnu); copy (f_release o) LinuxGnu ] ++
  when (f_android o)
    [ Tool [] (Build true (f_release o) AndroidArm64); Tool [] (Build true (f_release o) AndroidArm);
      copy (f_release o) AndroidArm64; copy (f_release o) AndroidArm ] ++
  when (f_ios o)
    [ Tool [] (Build (match host with MacArm => false | _ => true end) (f_release o) AppleIos);
      copy (f_release o) AppleIos ].
(** Lines 101-124; line 109 copies into the directory target/. *)
Definition bindings (o : flags) (host : triple) : list command :=
  when (f_rosetta o) [ Mv project project60 ] ++
  [ Rsync (placed_at host) ["target"; library host];
    Tool pinvoke_dir DotnetRestore;
    Tool pinvoke_dir (DotnetRun false) ] ++
  when (f_rosetta o) [ Mv project60 project ] ++
  [ Tool ["client"; "cs"; "tests"] DotnetTest;
    Tool demo_dir (DotnetBuild ["bin"; "main"] false) ].
(** Lines 128-150. *)
Definition bindings_ios (o : flags) : list command :=
  when (f_ios o)
    (when (f_rosetta o) [ Mv project project61 ] ++
     [ Tool pinvoke_dir (DotnetRun true) ] ++
     when (f_rosetta o) [ Mv project61 project ] ++
     [ Tool demo_dir (DotnetBuild ["bin"; "ios"] true) ]).
(** Lines 34-150. *)
Definition script (o : flags) (host : triple) : list command :=
  build_host o host ++ placeholders ++ cross_compile o host ++ bindings o host ++ bindings_ios o.

(** ** Execution *)

Definition parent (p : path) : path := removelast p.
Definition is_dir (f : fs) (p : path) : Prop := p = [] \/ f p = Some Dir.

(** [mkdir -p]: every missing directory on the way. *)
Fixpoint make_dirs (done todo : path) (f : fs) : fs :=
  match todo with
  | [] => f
  | c :: r => let p := done ++ [c] in
              make_dirs p r (match f p with None => put p (Some Dir) f | _ => f end)
  end.
(** Something on the way is not a directory (a link is not followed: there is none on the
    ways used). *)
Definition blocked (f : fs) (d : path) : Prop :=
  exists k, k <= length d /\ firstn k d <> [] /\ f (firstn k d) <> None /\ f (firstn k d) <> Some Dir.

(** The effect of one command that is not a toolchain program.  [full]: a [mkdir] may fail
    for no reason seen here (no room on the disk). *)
Inductive mkdir (full : bool) (d : path) (f : fs) : bool -> fs -> Prop :=
| mkdir_made : ~ blocked f d -> mkdir full d f true (make_dirs [] d f)
| mkdir_not k : blocked f d \/ full = true -> ~ blocked f (firstn k d) ->
    mkdir full d f false (make_dirs [] (firstn k d) f).
Inductive touch (p : path) (f : fs) : bool -> fs -> Prop :=
| touch_new : is_dir f (parent p) -> f p = None -> touch p f true (put p (Some (File "")) f)
| touch_old v : is_dir f (parent p) -> f p = Some (File v) -> touch p f true f
| touch_fails : touch p f false f.
(** rsync writes a new file beside the destination and renames it. *)
Inductive rsync (src dst : path) (f : fs) : bool -> fs -> Prop :=
| rsync_copies v : f src = Some (File v) -> is_dir f (parent dst) -> f dst <> Some Dir ->
    rsync src dst f true (put dst (Some (File v)) f)
| rsync_fails : rsync src dst f false f.
(** A rename of a file within a directory. *)
Inductive mv (src dst : path) (f : fs) : bool -> fs -> Prop :=
| mv_renames n : f src = Some n -> n <> Dir -> f dst <> Some Dir -> is_dir f (parent dst) ->
    mv src dst f true (put dst (Some n) (put src None f))
| mv_fails : mv src dst f false f.

(** A program of the toolchain, run in a directory: whether it succeeds, and what it
    leaves. *)
Definition programs := path -> tool -> fs -> bool -> fs -> Prop.

(** One command, and whether the shell goes on.  Line 4 [set -e]: it does if the command
    succeeded; but a failing [mkdir] to the left of [&&] (lines 49-53) does not stop it. *)
Inductive step (tools : programs) (full : bool) (f : fs) : command -> bool -> fs -> Prop :=
| step_tool d t ok f' : tools d t f ok f' -> step tools full f (Tool d t) ok f'
| step_rsync s d ok f' : rsync s d f ok f' -> step tools full f (Rsync s d) ok f'
| step_placeholder d n g ok f' : mkdir full d f true g -> touch (d ++ [n]) g ok f' ->
    step tools full f (MkdirTouch d n) ok f'
| step_no_placeholder d n f' : mkdir full d f false f' -> step tools full f (MkdirTouch d n) true f'
| step_mkdir d ok f' : mkdir full d f ok f' -> step tools full f (Mkdir d) ok f'
| step_touch p ok f' : touch p f ok f' -> step tools full f (Touch p) ok f'
| step_mv s d ok f' : mv s d f ok f' -> step tools full f (Mv s d) ok f'.

(** The script, run to its end ([true]) or stopped: by a failing command, or killed. *)
Inductive exec (tools : programs) (full : bool) : list command -> fs -> bool -> fs -> Prop :=
| exec_end f : exec tools full [] f true f
| exec_killed cs f : exec tools full cs f false f
| exec_fails c cs f f' : step tools full f c false f' -> exec tools full (c :: cs) f false f'
| exec_next c cs f g ok h : step tools full f c true g -> exec tools full cs g ok h ->
    exec tools full (c :: cs) f ok h.

(** ** The links of the Unity project (demos/unity_states/unity/Assets/Plugins) *)

Definition plugins : path := ["demos"; "unity_states"; "unity"; "Assets"; "Plugins"].
Definition up (n : nat) : list string := repeat ".." n.
Definition native_links : list (triple * path * list string) :=
  [ (LinuxGnu, plugins ++ ["Constellation"; "Linux"; "libunity_states.so"],
     up 7 ++ ["target"; "x86_64-unknown-linux-gnu"; "libunity_states.so"]);
    (MacArm, plugins ++ ["Constellation"; "Mac"; "aarch64"; "libunity_states.dylib"],
     up 8 ++ ["target"; "aarch64-apple-darwin"; "libunity_states.dylib"]);
    (AndroidArm, plugins ++ ["Constellation"; "Android"; "armeabi-v7a"; "libunity_states.so"],
     up 8 ++ ["target"; "armv7-linux-androideabi"; "libunity_states.so"]);
    (AndroidArm64, plugins ++ ["Constellation"; "Android"; "arm64-v8a"; "libunity_states.so"],
     up 8 ++ ["target"; "aarch64-linux-android"; "libunity_states.so"]);
    (AppleIos, plugins ++ ["Constellation"; "iOS"; "libunity_states.a"],
     up 7 ++ ["target"; "aarch64-apple-ios"; "libunity_states.a"]) ].
(** With the directory (main or ios) and the DLL meant. *)
Definition managed_links : list (string * string * path * list string) :=
  [ ("main", "client.dll", plugins ++ ["Constellation"; "Main"; "client.dll"],
     up 5 ++ ["cs"; "bin"; "main"; "client.dll"]);
    ("main", "rsharp.dll", plugins ++ ["Constellation"; "Main"; "rsharp.dll"],
     up 5 ++ ["cs"; "bin"; "main"; "rsharp.dll"]);
    ("main", "unity_states.dll", plugins ++ ["UnityStates"; "Main"; "unity_states.dll"],
     up 5 ++ ["cs"; "bin"; "main"; "unity_states.dll"]);
    ("ios", "client.dll", plugins ++ ["Constellation"; "iOS"; "client.dll"],
     up 5 ++ ["cs"; "bin"; "ios"; "client.dll"]);
    ("ios", "rsharp.dll", plugins ++ ["Constellation"; "iOS"; "rsharp.dll"],
     up 5 ++ ["cs"; "bin"; "ios"; "rsharp.dll"]);
    ("ios", "unity_states.dll", plugins ++ ["UnityStates"; "iOS"; "unity_states.dll"],
     up 5 ++ ["cs"; "bin"; "ios"; "unity_states.dll"]) ].
Definition runtime_link : path * list string :=
  (plugins ++ ["CppSharp.Runtime.dll"],
   up 5 ++ ["client"; "cs"; "tests"; "bin"; "Debug"; "net6.0"; "CppSharp.Runtime.dll"]).
Definition links : list (path * list string) :=
  map (fun l => (snd (fst l), snd l)) native_links ++
  map (fun l => (snd (fst l), snd l)) managed_links ++ [runtime_link].
