(** Which comments document what, and the text of markdown comments. *)
From Coq Require Import String Ascii.
From Verif Require Import Base PyLiteral ModelComments SpecComments CommentsProofs MarkdownProofs.

(** The comments of a declaration are those right before its first token, in their order. *)
Theorem C100_attached : forall ts i, (i < List.length ts)%nat ->
  (forall d, In d (map fst (find_before ts i)) <-> belongs ts d i) /\ strictly_sorted (map fst (find_before ts i)).
Proof. exact found. Qed.
Print Assumptions C100_attached.

(** No comment documents two declarations. *)
Theorem C100_one_owner : forall ts i j d,
  (exists t, nth_error ts i = Some t /\ t_channel t = Default) -> (exists t, nth_error ts j = Some t /\ t_channel t = Default) ->
  In d (map fst (find_before ts i)) -> In d (map fst (find_before ts j)) -> i = j.
Proof. exact one_owner. Qed.
Print Assumptions C100_one_owner.

(** A field of a structure has the comments before any of its parts: alignment, offset, extend, optional, type. *)
Theorem C100_field : forall ts starts, (forall i, In (Some i) starts -> (i < List.length ts)%nat) -> forall d,
  In d (map fst (find_field ts starts)) <-> exists i, In (Some i) starts /\ belongs ts d i.
Proof. exact field_found. Qed.
Print Assumptions C100_field.

(** Exactly the comments that belong to no declaration are reported as unused, each once. *)
Theorem C100_unused : forall ts qs, (forall q, In q qs -> (q < List.length ts)%nat) ->
  (forall d, In d (unused_comments ts qs) <->
    (exists t, nth_error ts d = Some t /\ t_channel t = Doc) /\ forall q, In q qs -> ~ belongs ts d q) /\ NoDup (unused_comments ts qs).
Proof. exact (fun ts qs L => conj (unused_iff ts qs L) (unused_once ts qs)). Qed.
Print Assumptions C100_unused.

(** A comment is sticky exactly if what follows it begins at most one line after its last line. *)
Theorem C100_sticky : forall ts i d s, (i < List.length ts)%nat -> In (d, s) (find_before ts i) ->
  exists next t f, follows ts d i next /\ nth_error ts d = Some t /\ nth_error ts next = Some f /\
  forall u c, t_text t = u ++ [c] -> c <> 10 -> (s = true <-> t_line f <= t_line t + newlines (t_text t) + 1).
Proof. exact sticky. Qed.
Print Assumptions C100_sticky.

(** A markdown comment that starts in the column after the indentation, all lines of which have the indentation or are empty: the text is what
    stands between the markers, without the indentation.  Missing: line ends with carriage returns (C100_crlf_refuted). *)
Theorem C100_indented_partial : forall ind pad ls ws,
  Forall blank ind -> ind <> [] -> Forall blank pad -> Forall plain_line ls -> Forall2 (indented_as ind) ls ws ->
  parse_markdown (join ((text "/*!" ++ pad) :: ws ++ [ind ++ text "!*/"])) (S (List.length ind)) =
  {| m_text := join (pad :: ls ++ [[]]); m_indented := true; m_one_liner := false; m_warning := false |}.
Proof. exact markdown_indented. Qed.
Print Assumptions C100_indented_partial.

(** One that starts in the first column or is on one line: the text is exactly what stands between the markers. *)
Theorem C100_verbatim : forall body column, (column = 1%nat \/ ~ In 10 body) ->
  let m := parse_markdown (text "/*!" ++ body ++ text "!*/") column in m_text m = body /\ m_indented m = false /\ m_warning m = false.
Proof. exact markdown_plain. Qed.
Print Assumptions C100_verbatim.

(** One that ends without exclamation mark has the same text and gives a warning. *)
Theorem C100_terminator : forall b c column, c <> 33 -> (column = 1%nat \/ ~ In 10 (b ++ [c])) ->
  let m := parse_markdown (text "/*!" ++ (b ++ [c]) ++ text "*/") column in m_text m = b ++ [c] /\ m_indented m = false /\ m_warning m = true.
Proof. exact markdown_other. Qed.
Print Assumptions C100_terminator.

(** With carriage returns an empty line is not empty for the compiler, and no indentation is removed: the lines then are code in markdown. *)
Theorem C100_crlf_refuted : exists ind ls ws,
  Forall blank ind /\ ind <> [] /\ Forall plain_line ls /\ Forall2 (indented_as ind) ls ws /\
  let m := parse_markdown (join (map (fun w => w ++ [13]) (text "/*!" :: ws) ++ [ind ++ text "!*/"])) (S (List.length ind)) in
  m_indented m = false /\ exists pre post, m_text m = pre ++ [10] ++ ind ++ hd [] ls ++ post.
Proof.
  exists (text "    "), [text "a"; []; text "b"], [text "    a"; []; text "    b"].
  split; [vm_compute; repeat constructor |]. split; [discriminate |]. split; [vm_compute; repeat constructor; discriminate |].
  split; [constructor; [left; reflexivity |]; constructor; [right; split; reflexivity |]; constructor; [left; reflexivity | constructor] |].
  split; [vm_compute; reflexivity |]. exists [13], ([13; 10; 13; 10] ++ text "    b" ++ [13; 10] ++ text "    "). vm_compute. reflexivity.
Qed.
Print Assumptions C100_crlf_refuted.

Example C100_example :
  let tok c l s := {| t_channel := c; t_line := l; t_text := s |} in
  let ts := [tok Doc 1 (text "/** far */"); tok Hidden 2 (text "// x"); tok Doc 4 (text "/** near */"); tok Default 5 (text "struct"); tok Default 5 (text "A"); tok Doc 5 (text "/** lost */"); tok Default 6 (text "{")] in
  find_before ts 3 = [(0, false); (2, true)]%nat /\ find_before ts 4 = [] /\ unused_comments ts [3]%nat = [5]%nat /\
  m_text (parse_markdown (text "/*! a !*/") 3) = text " a ".
Proof. vm_compute. repeat split; reflexivity. Qed.
Example C100_example_markdown : forall nl, nl = [10] ->
  m_text (parse_markdown (text "/*!" ++ nl ++ text "  a" ++ nl ++ nl ++ text "    b" ++ nl ++ text "  !*/") 3) = nl ++ text "a" ++ nl ++ nl ++ text "  b" ++ nl.
Proof. intros nl ->. vm_compute. reflexivity. Qed.
