(** C91: a run of the tool leaves the output files as a run into an empty directory would write them. *)
From Coq Require Import String Ascii.
From Verif Require Import Base ModelPackages ModelFiles ModelUpdate SpecFiles SpecUpdate UpdateProofs ExampleUpdate.
Local Open Scope string_scope.
Local Open Scope list_scope.
Local Open Scope nat_scope.

(** After any history of runs with any options, changes and removals of sources and output files and updates of the tool, whatever was skipped.  Missing: sources with another
    text and an older time, runs that end inside of a file, and other schemas in the same directory; false for them, see the refutations. *)
Theorem C91_up_to_date_partial : forall source_of generate fuel in_use r s events c pace s', empty in_use s -> carefully source_of generate fuel in_use r s events -> c_root c = r ->
  run source_of generate fuel (after source_of generate fuel s events) c pace = (s', true) -> up_to_date source_of generate fuel s' c.
Proof. exact fresh. Qed.
Print Assumptions C91_up_to_date_partial.
(** With -ignoreTimestamps whatever was before. *)
Theorem C91_ignore_timestamps : forall source_of generate fuel s c pace s', c_ignore c = true -> run source_of generate fuel s c pace = (s', true) -> up_to_date source_of generate fuel s' c.
Proof. exact ignored. Qed.
Print Assumptions C91_ignore_timestamps.
(** When nothing has changed, no file is written. *)
Theorem C91_nothing_to_do : forall source_of generate fuel s c pace pace' s1 s2 ok, settled source_of fuel s c -> c_ignore c = false ->
  run source_of generate fuel s c pace = (s1, true) -> run source_of generate fuel s1 c pace' = (s2, ok) -> s_outs s2 = s_outs s1.
Proof. exact unchanged. Qed.
Print Assumptions C91_nothing_to_do.
(** The header of a file tells the options and the versions of the tool. *)
Theorem C91_header : forall t o t' o', versions_ok t -> versions_ok t' -> header t o = header t' o' -> t_python t = t_python t' /\ t_core t = t_core t' /\ o = o'.
Proof. exact header_inj. Qed.
Print Assumptions C91_header.

(** The sources whose times and texts count are the input file and those of the packages it imports, directly or not; each is read once. *)
Theorem C91_files : forall source_of fuel (s : state) r ext l, identifiers_only (fun p => match s_sources s p with Some (t, _) => source_of t | None => None end) -> extension_of (r_input r) ext ->
  files_read source_of fuel (texts s) r = Some l ->
  NoDup l /\ forall p, In p l <-> needed (fun p => match s_sources s p with Some (t, _) => source_of t | None => None end) (r_src r) (r_input r) ext p.
Proof. exact files_needed. Qed.
Print Assumptions C91_files.

(** A file with the right header that is newer than the sources and the tool is kept, whatever is in it. *)
Theorem C91_kept : forall source_of generate fuel s c pace s' ok l p ls t, run source_of generate fuel s c pace = (s', ok) -> c_ignore c = false ->
  files_read source_of fuel (texts s) (c_root c) = Some l -> s_outs s p = Some (ls, t) -> firstn 2 ls = header (s_tool s) (c_flags c) ->
  (forall q, In q l -> 0 < time_of s q < t) -> 0 < installed (s_class_path s) < t -> s_outs s' p = Some (ls, t).
Proof. exact kept. Qed.
Print Assumptions C91_kept.
(** So two schemas cannot be generated into one directory one after the other, *)
Theorem C91_shared_refuted : exists source_of generate fuel in_use s c c' pace s1 s2, empty in_use s /\ settled source_of fuel s c /\ settled source_of fuel s c' /\ c_flags c = c_flags c' /\
  run source_of generate fuel s c pace = (s1, true) /\ run source_of generate fuel s1 c' pace = (s2, true) /\ ~ up_to_date source_of generate fuel s2 c'.
Proof. exact shared. Qed.
Print Assumptions C91_shared_refuted.
(** sources that are changed while the tool runs (or get a time before it ends) are not noticed, *)
Theorem C91_restored_refuted : exists source_of generate fuel in_use s c pace s1 p t time s2, empty in_use s /\ settled source_of fuel s c /\ run source_of generate fuel s c pace = (s1, true) /\
  s_now s <= time < s_now s1 /\ run source_of generate fuel (step source_of generate fuel s1 (Put p t time)) c pace = (s2, true) /\ ~ up_to_date source_of generate fuel s2 c.
Proof. exact restored. Qed.
Print Assumptions C91_restored_refuted.
(** and a file that a failed run has written in part stays when the next run succeeds. *)
Theorem C91_cut_refuted : exists source_of generate fuel in_use s c pace pace' s1 s2, empty in_use s /\ settled source_of fuel s c /\ run source_of generate fuel s c pace = (s1, false) /\
  run source_of generate fuel s1 c pace' = (s2, true) /\ ~ up_to_date source_of generate fuel s2 c.
Proof. exact cut_short. Qed.
Print Assumptions C91_cut_refuted.
(** Files of earlier runs are not removed. *)
Theorem C91_left_over_refuted : exists source_of generate fuel in_use r s events c pace s' p, empty in_use s /\ carefully source_of generate fuel in_use r s events /\ c_root c = r /\
  run source_of generate fuel (after source_of generate fuel s events) c pace = (s', true) /\ s_outs s' p <> None /\ forall ls, ~ full source_of generate fuel s' c p ls.
Proof. exact left_over. Qed.
Print Assumptions C91_left_over_refuted.

(** The hypotheses are met by a history with changes, other options and a deleted file, after which the last run writes nothing. *)
Theorem C91_example : empty used start /\ carefully read_text modules 9 used root_a start history /\ c_root command_a = root_a /\
  exists s', run read_text modules 9 (after read_text modules 9 start history) command_a pace = (s', true) /\
  full read_text modules 9 s' command_a "top/x.zs.py" (header tool0 all ++ ["import zserio"; "struct X2"]) /\
  full read_text modules 9 s' command_a "top/api.py" (header tool0 all ++ ["import top.a.zs"; "import top.x.zs"]) /\
  option_map snd (s_outs s' "top/x.zs.py") = Some 24 /\ s_now s' = 30.
Proof. exact example. Qed.
Print Assumptions C91_example.
Theorem C91_files_example : identifiers_only (fun p => match s_sources start p with Some (t, _) => read_text t | None => None end) /\ extension_of (r_input root_a) ".zs" /\
  files_read read_text 9 (texts start) root_a = Some ["a.zs"; "x.zs"].
Proof. exact files_example. Qed.
Print Assumptions C91_files_example.
Theorem C91_settled_example : settled read_text 9 start command_a /\ c_ignore command_a = false /\ exists s1, run read_text modules 9 start command_a pace = (s1, true) /\ s_outs s1 "top/api.py" <> None.
Proof. exact settled_example. Qed.
Print Assumptions C91_settled_example.
