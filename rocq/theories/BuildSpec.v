(** What is expected of client/build_mac_host.sh, in terms of files and links; and what is
    assumed of the programs it calls. *)
From Verif Require Export BuildScript.
Import Coq.Strings.String.StringSyntax.
Open Scope string_scope.
Open Scope list_scope.
Open Scope nat_scope.

(** ** Opening a file by its name, through links *)

(** From a directory, following the names of a relative path. *)
Inductive reaches (f : fs) : path -> list string -> path -> Prop :=
| reaches_end d : reaches f d [] d
| reaches_up d c rest q : reaches f d rest q -> reaches f (d ++ [c]) (".." :: rest) q
| reaches_dir d c rest q : c <> ".." -> f (d ++ [c]) = Some Dir ->
    reaches f (d ++ [c]) rest q -> reaches f d (c :: rest) q
| reaches_file d c v : c <> ".." -> f (d ++ [c]) = Some (File v) -> reaches f d [c] (d ++ [c])
| reaches_link d c t rest q : c <> ".." -> f (d ++ [c]) = Some (Link t) ->
    reaches f d (t ++ rest) q -> reaches f d (c :: rest) q.
Definition opens (f : fs) (p : path) (v : string) : Prop :=
  exists q, reaches f [] p q /\ f q = Some (File v).

(** ** File systems *)

(** Whatever there is is in a directory. *)
Definition tree (f : fs) : Prop :=
  forall p c, f (p ++ [c]) <> None -> p = [] \/ f p = Some Dir.

(** A fresh checkout: the project of the binding generator, alone in its directory; the
    links; and none of the directories that are not in the repository. *)
Definition is_project (n : string) : Prop := exists s, n = Coq.Strings.String.append s ".csproj".
Record clean (text : string) (f : fs) : Prop := {
  clean_tree : tree f;
  clean_links : forall p t, In (p, t) links -> f p = Some (Link t);
  clean_project : f ["client"; "codegen_pinvoke"; "codegen.csproj"] = Some (File text);
  clean_alone : forall n, is_project n -> f ["client"; "codegen_pinvoke"; n] <> None -> n = "codegen.csproj";
  clean_tests : f ["client"; "cs"; "tests"] = Some Dir;
  clean_demo : f ["demos"; "unity_states"; "cs"; "src"] = Some Dir;
  clean_target : f ["target"] = None;
  clean_bin : f ["demos"; "unity_states"; "cs"; "src"; "bin"] = None;
  clean_cs_bin : f ["demos"; "unity_states"; "cs"; "bin"] = None
}.

(** ** The toolchain *)

(** Directories with a C# project; where generated sources and headers go. *)
Definition projects : list path :=
  [ ["client"; "codegen_pinvoke"]; ["client"; "contract_example"; "cs"; "src"]; ["client"; "cs"; "src"];
    ["client"; "cs"; "tests"]; ["crates"; "rsharp"; "cs"; "src"]; ["crates"; "rsharp"; "cs"; "test"];
    ["demos"; "unity_states"; "cs"; "src"]; ["demos"; "unity_states"; "cs"; "tests"] ].
Definition sources : list path :=
  [ ["client"; "contract_example"; "cs"; "src"]; ["client"; "cs"; "src"]; ["crates"; "rsharp"; "cs"; "src"];
    ["demos"; "unity_states"; "cs"; "src"] ].
Definition crates : list path :=
  [ ["client"; "contract_example"; "rust"]; ["client"; "rust"]; ["crates"; "rsharp"; "rust"];
    ["demos"; "unity_states"; "rust"] ].
Definition triples : list triple := [MacArm; MacIntel; AppleIos; AndroidArm64; AndroidArm; LinuxGnu].

(** What a program, run in [d], may write: single files, and all that is in a directory. *)
Inductive zone : Type := Only (p : path) | Within (d : path).
Definition in_zone (z : zone) (p : path) : Prop :=
  match z with Only q => p = q | Within d => exists c r, p = d ++ c :: r end.
Definition generated : list zone :=
  flat_map (fun d => [Only (d ++ ["generated"]); Within (d ++ ["generated"])]) sources ++
  map (fun d => Only (d ++ ["generated.h"])) crates.
Definition zones (d : path) (t : tool) : list zone :=
  [ Only ["Cargo.lock"]; Only ["target"; ".rustc_info.json"]; Only ["target"; "CACHEDIR.TAG"];
    Within ["target"; "debug"]; Within ["target"; "release"] ] ++
  map (fun t => Only ["target"; triple_name t; "CACHEDIR.TAG"]) triples ++
  match t with
  | Build _ release t => [Within ["target"; triple_name t; profile_dir release]]
  | CargoTest | CargoRun _ => generated
  | DotnetRestore => [Within (d ++ ["obj"])]
  | DotnetRun _ => [Within (d ++ ["obj"]); Within (d ++ ["bin"])] ++ generated
  | DotnetTest => flat_map (fun q => [Within (q ++ ["obj"]); Within (q ++ ["bin"])]) projects ++ generated
  | DotnetBuild out _ => [Within (d ++ out)] ++ map (fun q => Within (q ++ ["obj"])) projects ++ generated
  end.
Definition area (d : path) (t : tool) (p : path) : Prop :=
  exists z, In z (zones d t) /\ in_zone z p.

(** [product release t]: the library made from the present sources; [dll ios name]: the
    assembly; [runtime]: CppSharp's. *)
Record toolchain (tools : programs) (product : bool -> triple -> string)
    (dll : bool -> string -> string) (runtime : string) : Prop := {
  (* Whether they succeed or not, programs write in their area only, and make missing
     directories on the way there. *)
  tc_area : forall d t f ok f' p, tools d t f ok f' -> ~ area d t p ->
    f' p = f p \/ (f p = None /\ f' p = Some Dir /\ exists r, r <> [] /\ area d t (p ++ r));
  tc_tree : forall d t f ok f', tools d t f ok f' -> tree f -> tree f';
  tc_build : forall d cross release t f f', tools d (Build cross release t) f true f' ->
    f' ["target"; triple_name t; profile_dir release; library t] = Some (File (product release t));
  (* dotnet wants exactly one project in the directory. *)
  tc_one : forall d t f f', tools d t f true f' -> (t = DotnetRestore \/ exists ios, t = DotnetRun ios) ->
    exists n, is_project n /\ f (d ++ [n]) <> None /\
      forall m, is_project m -> f (d ++ [m]) <> None -> m = n;
  tc_test : forall d f f', tools d DotnetTest f true f' ->
    f' (d ++ ["bin"; "Debug"; "net6.0"; "CppSharp.Runtime.dll"]) = Some (File runtime);
  tc_dll : forall d out ios f f' n, tools d (DotnetBuild out ios) f true f' ->
    In n ["client.dll"; "rsharp.dll"; "unity_states.dll"] ->
    f' (d ++ out ++ [n]) = Some (File (dll ios n))
}.

(** ** Histories *)

(** A run of the script with these arguments in this environment. *)
Definition runs (tools : programs) (full : bool) (host : triple) (env : flags) (args : list string)
    (f : fs) (ok : bool) (f' : fs) : Prop :=
  exec tools full (script (options env args) host) f ok f'.
Definition is_mac (t : triple) : Prop := t = MacArm \/ t = MacIntel.

(** Any number of runs, with any arguments, on any Mac, complete or not, the sources and
    tools changing in between. *)
Inductive history (f : fs) : fs -> Prop :=
| history_none : history f f
| history_run tools product dll runtime full host env args g ok h :
    history f g -> toolchain tools product dll runtime -> is_mac host ->
    runs tools full host env args g ok h -> history f h.

(** ** Options *)

(** [args] begins with option arguments, one of which has the letter. *)
Definition option_argument (a s : string) : Prop :=
  a = Coq.Strings.String.append "-" s /\ s <> "" /\ s <> "-".
Fixpoint has_letter (c : ascii) (s : string) : Prop :=
  match s with
  | Coq.Strings.String.EmptyString => False
  | Coq.Strings.String.String x r => x = c \/ has_letter c r
  end.
Definition given (args : list string) (c : ascii) : Prop :=
  exists before a s after, args = before ++ a :: after /\
    Forall (fun b => exists t, option_argument b t) before /\ option_argument a s /\ has_letter c s.

(** Whether a library is to be built. *)
Definition asked (env : flags) (args : list string) (host t : triple) : Prop :=
  match t with
  | MacArm => host = MacArm
  | MacIntel => host = MacIntel
  | AppleIos => f_ios env = true \/ given args "i"
  | AndroidArm64 | AndroidArm => f_android env = true \/ given args "a"
  | LinuxGnu => f_linux env = true \/ given args "l"
  end.
