(** Packages that import each other *)
From Coq Require Import String Ascii.
From Verif Require Import Base ModelPackages ModelFiles SpecFiles FilesProofs.
Local Open Scope string_scope.
Local Open Scope list_scope.

Definition file (d : option (list string)) (i : list import) (s : list string) : source :=
  {| declared := d; imports := i; symbols := fun n => if existsb (String.eqb n) s then Some KType else None |}.
(** map.zs, common/geometry.zs and common/featuretypes.zs below schemas/ *)
Definition example_list : list (string * source) :=
  [("schemas/map.zs", file (Some ["map"]) [ImportAll ["common"; "geometry"]; ImportOne ["common"; "featuretypes"] "Feature"] ["Tile"]);
   ("schemas/common/geometry.zs", file (Some ["common"; "geometry"]) [ImportOne ["map"] "Tile"; ImportAll ["common"; "geometry"]] ["Point"]);
   ("schemas/common/featuretypes.zs", file (Some ["common"; "featuretypes"]) [ImportAll ["common"; "geometry"]] ["Feature"]);
   ("schemas/other.zs", file (Some ["wrong"]) [] [])].
Definition example_files (path : string) : option source := option_map snd (find (fun x => String.eqb path (fst x)) example_list).

Lemma example_finite : finitely_many example_files.
Proof.
  exists (map fst example_list). intros path f H. unfold example_files in H. destruct (find _ example_list) as [x |] eqn:E; [| discriminate].
  apply find_some in E. destruct E as (I & E). apply String.eqb_eq in E. subst. apply in_map. exact I.
Qed.
Lemma identifier_dec : forall s, negb (String.eqb s "") && negb (has_slash s) = true -> identifier s.
Proof.
  intros s H. apply Bool.andb_true_iff in H. destruct H as (A & B). apply Bool.negb_true_iff in A, B. apply String.eqb_neq in A. split; [exact A |].
  intros I. apply has_slash_iff in I. congruence.
Qed.
Lemma example_identifiers : identifiers_only example_files.
Proof.
  intros path f H. unfold example_files in H. destruct (find _ example_list) as [x |] eqn:E; [| discriminate]. apply find_some in E. destruct E as (I & _).
  cbn in H. injection H as <-. destruct I as [<- | [<- | [<- | [<- | []]]]]; cbn [snd fst]; (split; cbn [declared imports file]);
    repeat match goal with
           | |- _ /\ _ => split
           | |- True => exact Logic.I
           | |- Forall _ [] => constructor
           | |- Forall _ (_ :: _) => constructor
           | |- identifier _ => apply identifier_dec; reflexivity
           | |- _ <> [] => discriminate
           | |- context [import_package] => progress cbn [import_package]
           end.
Qed.
Lemma example_extension : extension_of "map.zs" ".zs".
Proof. apply extension_iff. reflexivity. Qed.
Lemma example_read : match read_schema example_files (Some "schemas") ["top"] "map.zs" 10 with
  | Done st => registered st = ["schemas/common/featuretypes.zs"; "schemas/common/geometry.zs"; "schemas/map.zs"] /\
               map fst (known st) = [["top"; "map"]; ["top"; "common"; "geometry"]; ["top"; "common"; "featuretypes"]]
  | _ => False
  end.
Proof. vm_compute. split; reflexivity. Qed.
Lemma example_misplaced : read_schema example_files (Some "schemas") [] "other.zs" 10 = Failed.
Proof. vm_compute. reflexivity. Qed.
Lemma example_absolute : read_schema (fun path => if String.eqb path "/map.zs" then Some {| declared := Some ["map"]; imports := []; symbols := fun _ => None |} else None) None [] "/map.zs" 10 = Failed.
Proof. vm_compute. reflexivity. Qed.
