(** What "up to date" means, and when the times of files tell it (doc/ZserioUserGuide.md: ignoreTimestamps). *)
From Coq Require Import String Ascii.
From Verif Require Import Base ModelPackages ModelFiles ModelUpdate.
Local Open Scope string_scope.
Local Open Scope list_scope.
Local Open Scope nat_scope.

(** The time of the tool: that of the newest of its files, 0 if one is not known *)
Definition installed (l : list nat) : nat := if existsb (Nat.eqb 0) l then 0 else fold_right Nat.max 0 l.

Section Tool.
Context (source_of : text -> option source) (generate : tool -> root -> flags -> list (string * text) -> list (string * text) * bool) (fuel : nat).
(** The tools in use *)
Context (in_use : tool -> Prop).

(** What the tool writes into an empty directory *)
Definition full (s : state) (c : command) (p : string) (ls : text) : Prop :=
  exists l body, files_read source_of fuel (texts s) (c_root c) = Some l /\
    In (p, body) (fst (generate (s_tool s) (c_root c) (c_flags c) (with_texts (texts s) l))) /\ ls = header (s_tool s) (c_flags c) ++ body.
Definition up_to_date (s : state) (c : command) : Prop := forall p ls, full s c p ls -> exists time, s_outs s p = Some (ls, time).

(** Versions are written without spaces. *)
Fixpoint no_space (s : string) : bool := match s with EmptyString => true | String c s => negb (Ascii.eqb c " ") && no_space s end.
Definition versions_ok (t : tool) : Prop := no_space (t_python t) = true /\ no_space (t_core t) = true.

(** Sources get the time of their last change (or a later or unknown one), a tool is as new as the change of it or has versions of its own, the directory is used for one
    input file, and no run ends while it writes a file. *)
Definition careful (r : root) (s : state) (e : event) : Prop :=
  match e with
  | Wait _ | Remove _ | Delete _ => True
  | Put _ _ time => s_now s <= time \/ time = 0
  | Install t l => versions_ok t /\ in_use t /\ (s_now s <= installed l \/ installed l = 0 \/ forall t', in_use t' -> t_python t' = t_python t -> t_core t' = t_core t -> t' = t)
  | Run c pace => c_root c = r /\ Forall (fun d => snd d = None) pace
  end.
Fixpoint carefully (r : root) (s : state) (l : list event) : Prop :=
  match l with
  | [] => True
  | e :: l => careful r s e /\ carefully r (step source_of generate fuel s e) l
  end.
Definition empty (s : state) : Prop := versions_ok (s_tool s) /\ in_use (s_tool s) /\ forall p, s_outs s p = None.
(** The sources, and the tool, are older than the clock. *)
Definition settled (s : state) (c : command) : Prop :=
  0 < installed (s_class_path s) < s_now s /\
  forall l p, files_read source_of fuel (texts s) (c_root c) = Some l -> In p l -> 0 < time_of s p < s_now s.
End Tool.
