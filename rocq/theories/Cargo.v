(** Cargo's handling of build scripts: when [/repo/build.rs] is run, and what a build uses otherwise.
    This is cargo's documented behaviour ("The Cargo Book", chapter "Build Scripts", section "Change
    Detection"), not code of this repository. *)
From Coq Require Import NArith List String Ascii Bool.
From Verif Require Import Words Config.
Import ListNotations.
Local Open Scope N_scope.
Local Open Scope string_scope.

(** The variables a build runs with; [/repo/build.rs:2] reads one. *)
Definition environment := string -> option string.

(** The variable read in [/repo/build.rs:2]. *)
Definition variable : string := "TAGGED_BOX_RESERVED_WIDTH".

(** The files of the package: path and version. Cargo. For [/repo/build.rs:1-28]. *)
Definition files := list (string * N).

(** Auxiliary. For [/repo/build.rs:1-28]. *)
Definition same_version (a b : option N) : bool :=
  match a, b with Some x, Some y => N.eqb x y | None, None => true | _, _ => false end.
(** Auxiliary. For [/repo/build.rs:1-28]. *)
Definition same_value (a b : option string) : bool :=
  match a, b with Some x, Some y => String.eqb x y | None, None => true | _, _ => false end.

(** The version of a file. For [/repo/build.rs:1-28]. *)
Fixpoint version (path : string) (f : files) : option N :=
  match f with [] => None | (p, v) :: r => if String.eqb p path then Some v else version path r end.

(** Auxiliary. For [/repo/build.rs:1-28]. *)
Fixpoint same_files (f g : files) : bool :=
  match f, g with
  | [], [] => true
  | (p, v) :: f, (q, w) :: g => String.eqb p q && N.eqb v w && same_files f g
  | _, _ => false
  end.

(** A run of the script that cargo remembers: what the script saw and what it printed.
    Of [/repo/build.rs:1-28]. *)
Record script_run : Type := ScriptRun { sr_files : files; sr_env : environment; sr_out : string }.

(** The lines [cargo:rerun-if-env-changed=VAR] and [cargo:rerun-if-changed=PATH].
    Cargo; [/repo/build.rs:1-28] prints none. *)
Definition env_deps (out : string) : list string :=
  keep_some (map (strip_prefix "cargo:rerun-if-env-changed=") (split_lines out)).
(** Cargo; [/repo/build.rs:1-28] prints none. *)
Definition file_deps (out : string) : list string :=
  keep_some (map (strip_prefix "cargo:rerun-if-changed=") (split_lines out)).

(** Without such a line the script is run again if any file of the package changed; with one, if a
    variable or file named in them changed. Cargo. For [/repo/build.rs:1-28]. *)
Definition fresh (r : script_run) (f : files) (e : environment) : bool :=
  match env_deps (sr_out r), file_deps (sr_out r) with
  | [], [] => same_files (sr_files r) f
  | vars, paths =>
      forallb (fun v => same_value (sr_env r v) (e v)) vars &&
      forallb (fun p => same_version (version p (sr_files r)) (version p f)) paths
  end.

(** The remembered runs: one for each kind of build (profile and target). Cargo. For [/repo/build.rs:1-28]. *)
Record workspace : Type := Workspace { ws_files : files; ws_runs : string -> option script_run }.

(** Cargo. For [/repo/build.rs:1-28]. *)
Definition remember (k : string) (r : script_run) (runs : string -> option script_run) : string -> option script_run :=
  fun k' => if String.eqb k' k then Some r else runs k'.

(** What happens to a workspace. For [/repo/build.rs:1-28]. *)
Inductive action : Type :=
| Build (kind : string) (e : environment)   (* cargo build, cargo test, ... *)
| Edit (f : files)                          (* the files of the package become these *)
| Clean.                                    (* cargo clean *)

Section Cargo.
(** The script: from the value of [variable] the lines printed. *)
Variable script : option string -> list string.

(** What a build compiles the crate with: the cfg flags. Cargo running [/repo/build.rs:1-28]. *)
Definition act (a : action) (w : workspace) : option (list string) * workspace :=
  match a with
  | Build k e =>
      let run := ScriptRun (ws_files w) e (stdout_of (script (e variable))) in
      match ws_runs w k with
      | Some r =>
          if fresh r (ws_files w) e then (Some (cargo_cfgs (sr_out r)), w)
          else (Some (cargo_cfgs (sr_out run)), Workspace (ws_files w) (remember k run (ws_runs w)))
      | None => (Some (cargo_cfgs (sr_out run)), Workspace (ws_files w) (remember k run (ws_runs w)))
      end
  | Edit f => (None, Workspace f (ws_runs w))
  | Clean => (None, Workspace (ws_files w) (fun _ => None))
  end.

(** The cfg flags of the builds of a history, in order. Cargo. For [/repo/build.rs:1-28]. *)
Fixpoint history (l : list action) (w : workspace) : list (list string) * workspace :=
  match l with
  | [] => ([], w)
  | a :: r =>
      let (c, w1) := act a w in
      let (cs, w2) := history r w1 in
      (match c with Some x => x :: cs | None => cs end, w2)
  end.

End Cargo.

(** The setting a list of flags selects, as [selected] for one run of the script.
    [/repo/src/discriminant.rs:33-34]. *)
Definition setting (cfgs : list string) : option config :=
  match active_rows cfgs with [c] => Some c | _ => None end.

(** The builds of the makefile's task [test-all], [/repo/Makefile.toml:10-30]; [miri-all], [:64-96],
    cleans first. *)
Definition set_var (e : environment) (f : string) : environment :=
  fun v => if String.eqb v variable then Some f else e v.
(** [/repo/Makefile.toml:10-30]. *)
Definition test_all (kind : string) (e : environment) (settings : list string) : list action :=
  map (fun f => Build kind (set_var e f)) settings.
(** [/repo/Makefile.toml:64-96]. *)
Definition miri_all (kind : string) (e : environment) (settings : list string) : list action :=
  Clean :: test_all kind e settings.

(** The script with the line that cargo's documentation asks for. A variant of [/repo/build.rs:1-28]. *)
Definition repaired (env : option string) : list string :=
  "cargo:rerun-if-env-changed=TAGGED_BOX_RESERVED_WIDTH" :: build_rs env.

(** A repair often seen instead: only the script itself is named. A variant of [/repo/build.rs:1-28]. *)
Definition half_repaired (env : option string) : list string :=
  "cargo:rerun-if-changed=build.rs" :: build_rs env.
