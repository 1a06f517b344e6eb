(** Schemas a and b, that share x, generated below the top level package top. *)
From Coq Require Import String Ascii.
From Verif Require Import Base ModelPackages ModelFiles ModelUpdate SpecFiles SpecUpdate UpdateProofs.
Local Open Scope string_scope.
Local Open Scope list_scope.
Local Open Scope nat_scope.

(** A text is the name of its package, a declaration, and the packages it imports. *)
Definition read_text (t : text) : option source :=
  match t with
  | p :: _ :: l => Some {| declared := Some [p]; imports := map (fun i => ImportAll [i]) l; symbols := fun _ => None |}
  | _ => None
  end.
(** A module for each package, and an api module with the packages (C83) *)
Definition modules (t : tool) (r : root) (o : flags) (l : list (string * text)) : list (string * text) * bool :=
  (map (fun f => (("top/" ++ fst f ++ ".py")%string, ["import zserio"; nth 1 (snd f) ""])) l ++ [("top/api.py", map (fun f => ("import top." ++ fst f)%string) l)], true).
Definition tool0 : tool := {| t_python := "1.1.2"; t_core := "2.18.2"; t_build := 0 |}.
Definition used (t : tool) : Prop := t = tool0.
Definition all : flags := {| f_writer := true; f_pubsub := true; f_service := true; f_sql := true; f_range := false; f_type_info := false; f_comments := false |}.
Definition with_info : flags := {| f_writer := true; f_pubsub := true; f_service := true; f_sql := true; f_range := false; f_type_info := true; f_comments := false |}.
Definition root_a : root := {| r_src := None; r_top := ["top"]; r_input := "a.zs" |}.
Definition root_b : root := {| r_src := None; r_top := ["top"]; r_input := "b.zs" |}.
Definition command_a : command := {| c_root := root_a; c_flags := all; c_ignore := false |}.
Definition command_b : command := {| c_root := root_b; c_flags := all; c_ignore := false |}.
Definition sources : string -> option (text * nat) := fun p =>
  option_map snd (List.find (fun x => String.eqb p (fst x))
    [("a.zs", (["a"; "struct A"; "x"], 5)); ("b.zs", (["b"; "struct B"; "x"; "y"], 5)); ("x.zs", (["x"; "struct X"], 6)); ("y.zs", (["y"; "struct Y"], 4))]).
Definition start : state := {| s_now := 10; s_sources := sources; s_tool := tool0; s_class_path := [3; 2]; s_outs := fun _ => None |}.
Definition pace : list (nat * option nat) := [(1, None); (0, None); (1, None); (0, None); (0, None); (0, None)].
Notation run0 := (run read_text modules 9).
Notation after0 := (after read_text modules 9).

Lemma start_empty : empty used start.
Proof. split; [split; reflexivity|]. split; reflexivity. Qed.
(** The schema is changed, generated with other options and back, and generated once more: the last run writes nothing. *)
Definition history : list event :=
  [Run command_a pace; Wait 5; Put "x.zs" ["x"; "struct X2"] 20; Run {| c_root := root_a; c_flags := with_info; c_ignore := false |} pace; Delete "top/api.py"; Remove "y.zs"; Wait 4; Run command_a pace; Wait 3].
Lemma history_careful : carefully read_text modules 9 used root_a start history.
Proof.
  cbn [carefully history careful]. repeat match goal with |- _ /\ _ => split | |- True => exact Logic.I | |- Forall _ pace => repeat constructor | |- c_root _ = _ => reflexivity end.
  left. vm_compute. lia.
Qed.
Lemma example : empty used start /\ carefully read_text modules 9 used root_a start history /\ c_root command_a = root_a /\ exists s', run0 (after0 start history) command_a pace = (s', true) /\
  full read_text modules 9 s' command_a "top/x.zs.py" (header tool0 all ++ ["import zserio"; "struct X2"]) /\
  full read_text modules 9 s' command_a "top/api.py" (header tool0 all ++ ["import top.a.zs"; "import top.x.zs"]) /\
  option_map snd (s_outs s' "top/x.zs.py") = Some 24 /\ s_now s' = 30.
Proof.
  split; [exact start_empty|]. split; [exact history_careful|]. split; [reflexivity|]. eexists. split; [vm_compute; reflexivity|]. split; [|split; [|split; vm_compute; reflexivity]].
  - exists ["a.zs"; "x.zs"], ["import zserio"; "struct X2"]. split; [vm_compute; reflexivity|]. split; [vm_compute; auto|reflexivity].
  - exists ["a.zs"; "x.zs"], ["import top.a.zs"; "import top.x.zs"]. split; [vm_compute; reflexivity|]. split; [vm_compute; auto|reflexivity].
Qed.
Lemma files_example : identifiers_only (fun p => match s_sources start p with Some (t, _) => read_text t | None => None end) /\ extension_of (r_input root_a) ".zs" /\
  files_read read_text 9 (texts start) root_a = Some ["a.zs"; "x.zs"].
Proof.
  split; [|split; [|reflexivity]].
  - intros path f. cbn [s_sources start]. unfold sources. cbn [List.find fst].
    repeat (match goal with |- context [String.eqb path ?x] => destruct (String.eqb path x) end; [cbn; intros [= <-]; split; [split; [discriminate|repeat constructor; cbn; intuition discriminate]|repeat constructor; cbn; intuition discriminate]|]).
    discriminate.
  - left. exists "a", "zs". repeat split; [discriminate|]. cbn. intuition discriminate.
Qed.
Lemma settled_example : settled read_text 9 start command_a /\ c_ignore command_a = false /\ exists s1, run0 start command_a pace = (s1, true) /\ s_outs s1 "top/api.py" <> None.
Proof.
  split; [|split; [reflexivity|eexists; split; [vm_compute; reflexivity|vm_compute; discriminate]]]. split; [vm_compute; lia|]. intros l p F I. vm_compute in F. injection F as <-.
  destruct I as [<- |[<- |[]]]; vm_compute; lia.
Qed.
Ltac outdated p ls l b := intros U; destruct (U p ls) as (t & E); [exists l, b; split; [vm_compute; reflexivity|]; split; [vm_compute; auto 10|reflexivity]|]; vm_compute in E; discriminate E.

(** Schema b is generated into the directory of schema a. *)
Lemma shared : exists source_of generate fuel in_use s c c' pace s1 s2, empty in_use s /\ settled source_of fuel s c /\ settled source_of fuel s c' /\ c_flags c = c_flags c' /\
  run source_of generate fuel s c pace = (s1, true) /\ run source_of generate fuel s1 c' pace = (s2, true) /\ ~ up_to_date source_of generate fuel s2 c'.
Proof.
  exists read_text, modules, 9, used, start, command_a, command_b, pace. eexists. eexists. split; [exact start_empty|]. split; [exact (proj1 settled_example)|].
  split. { split; [vm_compute; lia|]. intros l p F I. vm_compute in F. injection F as <-. destruct I as [<- |[<- |[<- |[]]]]; vm_compute; lia. }
  split; [reflexivity|]. split; [vm_compute; reflexivity|]. split; [vm_compute; reflexivity|].
  outdated "top/api.py" (header tool0 all ++ ["import top.b.zs"; "import top.x.zs"; "import top.y.zs"]) ["b.zs"; "x.zs"; "y.zs"] ["import top.b.zs"; "import top.x.zs"; "import top.y.zs"].
Qed.
(** A source gets another text, but keeps a time before the run: it is restored with its old time, or is changed while the tool runs. *)
Lemma restored : exists source_of generate fuel in_use s c pace s1 p t time s2, empty in_use s /\ settled source_of fuel s c /\ run source_of generate fuel s c pace = (s1, true) /\
  s_now s <= time < s_now s1 /\ run source_of generate fuel (step source_of generate fuel s1 (Put p t time)) c pace = (s2, true) /\ ~ up_to_date source_of generate fuel s2 c.
Proof.
  exists read_text, modules, 9, used, start, command_a, [(2, None); (0, None); (1, None)]. eexists. exists "x.zs", ["x"; "struct X2"], 11. eexists. split; [exact start_empty|].
  split; [exact (proj1 settled_example)|]. split; [vm_compute; reflexivity|]. split; [vm_compute; lia|]. split; [vm_compute; reflexivity|].
  outdated "top/x.zs.py" (header tool0 all ++ ["import zserio"; "struct X2"]) ["a.zs"; "x.zs"] ["import zserio"; "struct X2"].
Qed.
(** The tool fails while it writes a file; the next run succeeds and leaves the beginning of that file. *)
Lemma cut_short : exists source_of generate fuel in_use s c pace pace' s1 s2, empty in_use s /\ settled source_of fuel s c /\ run source_of generate fuel s c pace = (s1, false) /\
  run source_of generate fuel s1 c pace' = (s2, true) /\ ~ up_to_date source_of generate fuel s2 c.
Proof.
  exists read_text, modules, 9, used, start, command_a, [(1, None); (1, Some 3)], pace. eexists. eexists. split; [exact start_empty|].
  split; [exact (proj1 settled_example)|]. split; [vm_compute; reflexivity|]. split; [vm_compute; reflexivity|].
  outdated "top/x.zs.py" (header tool0 all ++ ["import zserio"; "struct X"]) ["a.zs"; "x.zs"] ["import zserio"; "struct X"].
Qed.
(** Files of earlier runs that are not generated any more are not removed. *)
Lemma left_over : exists source_of generate fuel in_use r s events c pace s' p, empty in_use s /\ carefully source_of generate fuel in_use r s events /\ c_root c = r /\
  run source_of generate fuel (after source_of generate fuel s events) c pace = (s', true) /\ s_outs s' p <> None /\ forall ls, ~ full source_of generate fuel s' c p ls.
Proof.
  exists read_text, modules, 9, used, root_a, start, [Run command_a pace; Put "a.zs" ["a"; "struct A"] 12], command_a, pace. eexists. exists "top/x.zs.py". split; [exact start_empty|].
  split. { cbn [carefully careful]. split; [split; [reflexivity|repeat constructor]|]. split; [left; vm_compute; lia|exact Logic.I]. }
  split; [reflexivity|]. split; [vm_compute; reflexivity|]. split; [vm_compute; discriminate|].
  intros ls (l & b & F & I & _). vm_compute in F. injection F as <-. vm_compute in I. destruct I as [I|[I|[]]]; discriminate I.
Qed.
