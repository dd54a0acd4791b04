(** The editor script that runs in every Android build of the Unity project
    (demos/unity_states/unity/Assets/Plugins/Constellation/Editor): Unity has written a
    Gradle project in which the native libraries are copies of symbolic links; the script
    replaces these by copies of the files the links open.

    Unity's own [FileUtil] functions are modelled from their documentation: deleting removes
    the name (and what is in it, if it is a directory), copying follows links and needs the
    directory of the destination. *)
From Verif Require Export BuildSpec.
Import Coq.Strings.String.StringSyntax.
Open Scope string_scope.
Open Scope list_scope.
Open Scope nat_scope.

(** ConstellationBuildSettings.cs:6-10 (the unused [dotnetProjectPath] left out); names of
    libraries are paths. *)
Record settings : Type := mkSettings { plugins_dir : path; lib_names : list path }.
(** ConstellationBuildSettings.cs:12-30 [GetDefaults]: null unless there is exactly one. *)
Definition get_defaults (found : list settings) : option settings :=
  match found with
  | [] => None
  | [s] => Some s
  | _ => None
  end.
(** The Unity project's directory, to which its paths are relative. *)
Definition unity : path := ["demos"; "unity_states"; "unity"].
(** The settings in the repository (ConstellationBuildSettings.asset). *)
Definition repo_settings : settings :=
  mkSettings (unity ++ ["Assets"; "Plugins"; "Constellation"; "Android"])
    [ ["arm64-v8a"; "libunity_states.so"]; ["armeabi-v7a"; "libunity_states.so"] ].

Fixpoint beneath (d p : path) : bool :=
  match d, p with
  | [], _ => true
  | x :: d', y :: p' => (Coq.Strings.String.eqb x y && beneath d' p')%bool
  | _ :: _, [] => false
  end.
(** [FileUtil.DeleteFileOrDirectory]. *)
Definition delete (p : path) (f : fs) : fs := fun q => if beneath p q then None else f q.
(** [FileUtil.CopyFileOrDirectoryFollowSymlinks]; when it fails (or is killed), anything may
    have been written so far. *)
Inductive copy_file (src dst : path) (f : fs) : bool -> fs -> Prop :=
| copy_done v : opens f src v -> is_dir f (parent dst) -> f dst = None ->
    copy_file src dst f true (put dst (Some (File v)) f)
| copy_nothing : copy_file src dst f false f
| copy_partly v : is_dir f (parent dst) -> f dst = None -> copy_file src dst f false (put dst (Some (File v)) f).

(** ConstellationBuildPreprocessor.cs:17-24: the loop. *)
Inductive desymbolicate (from to : path) : list path -> fs -> bool -> fs -> Prop :=
| ds_end f : desymbolicate from to [] f true f
| ds_killed libs f : desymbolicate from to libs f false f
| ds_fails lib libs f g : copy_file (from ++ lib) (to ++ lib) (delete (to ++ lib) f) false g ->
    desymbolicate from to (lib :: libs) f false g
| ds_next lib libs f g ok h : copy_file (from ++ lib) (to ++ lib) (delete (to ++ lib) f) true g ->
    desymbolicate from to libs g ok h -> desymbolicate from to (lib :: libs) f ok h.

(** ConstellationBuildPreprocessor.cs:13-25 [OnPostGenerateGradleAndroidProject]: with
    [found], the settings objects in the project; no settings: the loop's first line throws. *)
Definition on_android_build (found : list settings) (project : path) (f : fs) (ok : bool) (f' : fs) : Prop :=
  match get_defaults found with
  | None => ok = false /\ f' = f
  | Some s => desymbolicate (plugins_dir s) (project ++ ["src"; "main"; "jniLibs"]) (lib_names s) f ok f'
  end.

(** ** Specification *)

(** Unity keeps its Gradle projects in directories of its own, beside Assets. *)
Definition unitys_own (p : path) : Prop :=
  exists c r, p = unity ++ c :: r /\ (c = "Library" \/ c = "Temp").
(** Unity itself writes there. *)
Definition unity_works (f f' : fs) : Prop :=
  tree f' /\ forall p, ~ unitys_own p -> f' p = f p.
(** Any number of runs of the build script, of Unity's own work and of Android builds, each
    complete or not. *)
Inductive work (f : fs) : fs -> Prop :=
| work_none : work f f
| work_script tools product dll runtime full host env args g ok h :
    work f g -> toolchain tools product dll runtime -> is_mac host ->
    runs tools full host env args g ok h -> work f h
| work_unity g h : work f g -> unity_works g h -> work f h
| work_android found project g ok h : work f g -> unitys_own project ->
    (forall s, In s found -> s = repo_settings) -> on_android_build found project g ok h -> work f h.

(** The library a device of this architecture will load, in the Gradle project. *)
Definition packaged (project : path) (abi : string) : path :=
  project ++ ["src"; "main"; "jniLibs"; abi; "libunity_states.so"].
Definition abi_triple (abi : string) (t : triple) : Prop :=
  (abi = "arm64-v8a" /\ t = AndroidArm64) \/ (abi = "armeabi-v7a" /\ t = AndroidArm).
(** The Gradle project has the directories (Unity has copied the links there). *)
Definition has_places (project : path) (f : fs) : Prop :=
  forall abi t, abi_triple abi t -> f (parent (packaged project abi)) = Some Dir.
