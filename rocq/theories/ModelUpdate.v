(** Model of which output files are written when the tool runs again on a directory with files of earlier runs: InputFileManager.java:67-90, ResourceManager.java:31-93,
    ZserioExtensionParameters.java:17-25 (core/src/zserio/tools), OutputFileManager.java:22-27, 60-83, FreeMarkerUtil.java:84-117 (core/src/zserio/extension/common),
    PythonDefaultEmitter.java:75-121, PythonExtensionParameters.java:20-48, TemplateDataContext.java:23-26, PythonExtension.java:99-131 and FileHeader.inc.ftl
    (compiler/extensions/python).

    Simplifications.
    - What a text declares ([source_of]) and what is generated for the texts that were read ([generate]: the files in the order of the emitters with what is below the
      header, and whether there was no exception) are given functions: nothing else than the tool, the options and the texts determines the generated code.
    - Times are natural numbers; 0 is the answer of File.lastModified for unknown times and for files that do not exist.
    - Texts are lists of lines. *)
From Coq Require Import String Ascii.
From Verif Require Import Base ModelPackages ModelFiles.
Local Open Scope string_scope.
Local Open Scope list_scope.
Local Open Scope nat_scope.

Definition text := list string.

(** The tool: its versions, and a number for what the versions do not tell *)
Record tool := { t_python : string; t_core : string; t_build : nat }.
Record flags := { f_writer : bool; f_pubsub : bool; f_service : bool; f_sql : bool; f_range : bool; f_type_info : bool; f_comments : bool }.
Record root := { r_src : option string; r_top : list string; r_input : string }.
Record command := { c_root : root; c_flags : flags; c_ignore : bool (* -ignoreTimestamps *) }.

(** PythonExtensionParameters.java:31-46: StringJoiner(", ") *)
Definition setup (o : flags) : list string :=
  (if f_writer o then ["writerCode"] else []) ++ (if f_pubsub o then ["pubsubCode"] else []) ++ (if f_service o then ["serviceCode"] else []) ++ (if f_sql o then ["sqlCode"] else []) ++
  (if f_range o then ["rangeCheckCode"] else []) ++ (if f_type_info o then ["typeInfoCode"] else []) ++ (if f_comments o then ["codeComments"] else []).
(** TemplateDataContext.java:23-26 *)
Definition header (t : tool) (o : flags) : text :=
  ["# Automatically generated by Zserio Python generator version " ++ t_python t ++ " using Zserio core " ++ t_core t ++ "."; "# Generator setup: " ++ String.concat ", " (setup o)]%string.

(** InputFileManager.registerFile, for files in the order of parsing *)
Definition register_time (s : nat * bool) (time : nat) : nat * bool :=
  let (last, error) := s in
  if error then s else if last <? time then (time, false) else if time =? 0 then (0, true) else s.
Definition source_time (l : list nat) : nat := fst (fold_left register_time l (0, false)).
(** ResourceManager.getLastModifiedTime, for the entries of the class path *)
Fixpoint resource_time (last : nat) (l : list nat) : nat :=
  match l with
  | [] => last
  | time :: l => if last <? time then resource_time time l else if time =? 0 then 0 else resource_time last l
  end.
(** ZserioExtensionParameters.java:21-23 *)
Definition last_time (sources resources : nat) : nat := if (sources =? 0) || (resources =? 0) then 0 else Nat.max sources resources.

(** ** The directory and a run of the tool *)
Record state := {
  s_now : nat;
  s_sources : string -> option (text * nat);
  s_tool : tool;
  s_class_path : list nat;                       (* the times of its entries *)
  s_outs : string -> option (text * nat)
}.

(** OutputFileManager.checkTimestamps *)
Definition check_timestamps (ignore : bool) (last : nat) (out : option (text * nat)) : bool :=
  if ignore || (last =? 0) then false else last <? match out with Some (_, time) => time | None => 0 end.
(** PythonDefaultEmitter.checkGeneratorDescription *)
Definition check_header (h : text) (out : option (text * nat)) : bool :=
  match out with
  | Some (ls, _) => if list_eq_dec string_dec h (firstn (List.length h) ls) then true else false
  | None => false
  end.
Definition update {A} (f : string -> option A) (p : string) (a : A) : string -> option A := fun q => if String.eqb p q then Some a else f q.

(** PythonDefaultEmitter.processTemplate for one file after the other.  [pace]: for each file how long it takes until it is written, and whether writing it fails (or
    the tool is killed) after some lines; the tool ends before the first file without a pace.  [true]: all files have been processed. *)
Fixpoint process (ignore : bool) (last : nat) (h : text) (now : nat) (outs : string -> option (text * nat)) (seen : list string) (items : list (string * text))
    (pace : list (nat * option nat)) : nat * (string -> option (text * nat)) * bool :=
  match items, pace with
  | [], _ => (now, outs, true)
  | _, [] => (now, outs, false)
  | (p, body) :: items, (delay, cut) :: pace =>
      let now := now + delay in
      let write := negb (check_timestamps ignore last (outs p)) || negb (check_header h (outs p)) in
      match write, cut with
      | true, Some k => (now, update outs p (firstn k (h ++ body), now), false)
      | _, _ =>
          let outs := if write then update outs p (h ++ body, now) else outs in
          if existsb (String.eqb p) seen then (now, outs, false)                 (* registerOutputFile: already registered *)
          else process ignore last h now outs (p :: seen) items pace
      end
  end.

Section Tool.
Context (source_of : text -> option source) (generate : tool -> root -> flags -> list (string * text) -> list (string * text) * bool) (fuel : nat).

Definition texts (s : state) (p : string) : option text := option_map fst (s_sources s p).
Definition parsed (sources : string -> option text) (p : string) : option source := match sources p with Some t => source_of t | None => None end.
(** ZserioTool.parse: the files that have been read, in that order *)
Definition files_read (sources : string -> option text) (r : root) : option (list string) :=
  match read_schema (parsed sources) (r_src r) (r_top r) (r_input r) fuel with Done st => Some (rev (registered st)) | _ => None end.
Definition with_texts (sources : string -> option text) (l : list string) : list (string * text) := map (fun p => (p, match sources p with Some t => t | None => [] end)) l.
Definition time_of (s : state) (p : string) : nat := match s_sources s p with Some (_, time) => time | None => 0 end.

(** ZserioTool.process with PythonExtension.process *)
Definition run (s : state) (c : command) (pace : list (nat * option nat)) : state * bool :=
  match files_read (texts s) (c_root c) with
  | None => (s, false)
  | Some l =>
      let last := last_time (source_time (map (time_of s) l)) (resource_time 0 (s_class_path s)) in
      let (items, good) := generate (s_tool s) (c_root c) (c_flags c) (with_texts (texts s) l) in
      let '(now, outs, all) := process (c_ignore c) last (header (s_tool s) (c_flags c)) (s_now s) (s_outs s) [] items pace in
      ({| s_now := now; s_sources := s_sources s; s_tool := s_tool s; s_class_path := s_class_path s; s_outs := outs |}, all && good)
  end.

(** What happens between runs *)
Inductive event :=
| Wait (d : nat)
| Put (p : string) (t : text) (time : nat)       (* a source gets this text and this time *)
| Remove (p : string)
| Delete (p : string)                            (* an output file is deleted *)
| Install (t : tool) (class_path : list nat)
| Run (c : command) (pace : list (nat * option nat)).
Definition step (s : state) (e : event) : state :=
  match e with
  | Wait d => {| s_now := s_now s + d; s_sources := s_sources s; s_tool := s_tool s; s_class_path := s_class_path s; s_outs := s_outs s |}
  | Put p t time => {| s_now := s_now s; s_sources := update (s_sources s) p (t, time); s_tool := s_tool s; s_class_path := s_class_path s; s_outs := s_outs s |}
  | Remove p => {| s_now := s_now s; s_sources := fun q => if String.eqb p q then None else s_sources s q; s_tool := s_tool s; s_class_path := s_class_path s; s_outs := s_outs s |}
  | Delete p => {| s_now := s_now s; s_sources := s_sources s; s_tool := s_tool s; s_class_path := s_class_path s; s_outs := fun q => if String.eqb p q then None else s_outs s q |}
  | Install t l => {| s_now := s_now s; s_sources := s_sources s; s_tool := t; s_class_path := l; s_outs := s_outs s |}
  | Run c pace => fst (run s c pace)
  end.
Definition after (s : state) (l : list event) : state := fold_left step l s.
End Tool.
