(** The api modules of generated code: api.py in every package (compiler/extensions/python/src/zserio/extension/python/ApiEmitter.java, ApiEmitterTemplateData.java,
    compiler/extensions/python/freemarker/api.py.ftl) and what Python makes of them.

    Simplifications.
    - The symbols of a package are those for which code is generated (not templates, but their instantiations; SQL types, services and Pub/Sub types if switched on).
    - The set of subpackages is kept in the order of insertion and not in that of paths (TreeSet).
    - Modules of types and constants can be imported (C72) and define the one symbol they are generated for. *)
From Coq Require Import List Bool Ascii String Arith.
From Verif Require Import Base ModelNames.
Import ListNotations.
Open Scope list_scope.

Definition package := list name.
Definition eqp (a b : package) : bool := if list_eq_dec (list_eq_dec ascii_dec) a b then true else false.
(** Packages in the order in which they are walked (core/src/zserio/ast/Root.java:36-40), the root package first, with their symbols *)
Definition tree := list (package * list package_symbol).

(** ** Emitter *)
Record template_data := { t_subpackages : list package; t_symbols : list (package * package_symbol) }.
Definition mapping := list (package * template_data).
Definition get (st : mapping) (p : package) : option template_data := match find (fun e => eqp (fst e) p) st with Some e => Some (snd e) | None => None end.
Definition change (st : mapping) (p : package) (f : template_data -> template_data) : mapping := map (fun e => if eqp (fst e) p then (fst e, f (snd e)) else e) st.
Definition no_data : template_data := {| t_subpackages := []; t_symbols := [] |}.
(** ApiEmitterTemplateData.java:82-88, 96 *)
Definition add_subpackage (sub : package) (d : template_data) : template_data :=
  if existsb (eqp sub) (t_subpackages d) then d else {| t_subpackages := t_subpackages d ++ [sub]; t_symbols := t_symbols d |}.
(** ApiEmitterTemplateData.java:90-94 *)
Definition add_python_symbol (s : package * package_symbol) (d : template_data) : template_data :=
  {| t_subpackages := t_subpackages d; t_symbols := t_symbols d ++ [s] |}.
(** ApiEmitter.java:142-161; [current]: the part of the name that has been walked *)
Fixpoint add_ids (st : mapping) (previous : option package) (current : package) (ids : list name) : mapping :=
  match ids with
  | [] => st
  | id :: ids =>
      let current := current ++ [id] in
      let st := match get st current with Some _ => st | None => st ++ [(current, no_data)] end in
      let st := match previous with Some p => change st p (add_subpackage current) | None => st end in
      add_ids st (Some current) current ids
  end.
Definition add_package_mapping (st : mapping) (p : package) : mapping := add_ids st (match get st [] with Some _ => Some [] | None => None end) [] p.
(** 134-140: an exception is None *)
Definition add_empty_package_mapping (st : mapping) : option mapping := match st with [] => Some [([], no_data)] | _ => None end.
(** 52-62 *)
Definition begin_package (st : mapping) (p : package) : option mapping := match p with [] => add_empty_package_mapping st | _ => Some (add_package_mapping st p) end.
(** 163-184 *)
Definition add_symbol_mapping (st : mapping) (q : package) (s : package_symbol) : option mapping :=
  match get st q with Some _ => Some (change st q (add_python_symbol (q, s))) | None => None end.
Fixpoint add_symbols (st : mapping) (q : package) (l : list package_symbol) : option mapping :=
  match l with [] => Some st | s :: l => match add_symbol_mapping st q s with Some st => add_symbols st q l | None => None end end.
Fixpoint walk (st : mapping) (t : tree) : option mapping :=
  match t with
  | [] => Some st
  | (p, l) :: t =>
      match begin_package st p with
      | Some st => match add_symbols st p l with Some st => walk st t | None => None end
      | None => None
      end
  end.

(** api.py.ftl:3-14 *)
Inductive statement :=
  | ImportAs (module : package) (n : name)     (* import a.b.api as b *)
  | FromImport (module : package) (n : name).  (* from a.b.module import Name *)
Definition api_name : name := lit "api".
Definition api_statements (d : template_data) : list statement :=
  map (fun sub => ImportAs (sub ++ [api_name]) (List.last sub [])) (t_subpackages d) ++
  map (fun s => FromImport (fst s ++ [module_name (snd s)]) (python_symbol (snd s))) (t_symbols d).

(** ** Generated files: modules of symbols (PythonDefaultEmitter.java:60-95), and api.py of packages (ApiEmitter.java:41-50) *)
Inductive file := Module (q : package) (s : package_symbol) | Api (l : list statement).
Definition files (t : tree) (st : mapping) : list (package * file) :=
  flat_map (fun e => map (fun s => (fst e ++ [module_name s], Module (fst e) s)) (snd e)) t ++ map (fun e => (fst e ++ [api_name], Api (api_statements (snd e)))) st.

Fixpoint begins (p q : package) : bool :=
  match p, q with [], _ => true | x :: p, y :: q => eqn x y && begins p q | _ :: _, [] => false end.
(** Directories with __init__.py (InitPyEmitter.java:27-53) *)
Definition is_package (t : tree) (p : package) : bool := existsb (fun e => begins p (fst e)) t.

(** ** Python (trusted): packages are preferred to modules; the last file written under a name is the file *)
Definition find_module (t : tree) (st : mapping) (path : package) : option file :=
  if is_package t path then None else match find (fun e => eqp (fst e) path) (rev (files t st)) with Some e => Some (snd e) | None => None end.
Inductive value := VSymbol (q : package) (s : package_symbol) | VModule (names : list (name * value)).
Definition names := list (name * value).
Definition attribute (ns : names) (n : name) : option value := match find (fun e => eqn (fst e) n) ns with Some e => Some (snd e) | None => None end.
Section Run.
Context (t : tree) (st : mapping).
(** [run fuel l ns]: the names after the statements [l] of a module; [fuel]: the depth of nested imports *)
Fixpoint run (fuel : nat) : list statement -> names -> res names :=
  fix go (l : list statement) (ns : names) : res names :=
    match l with
    | [] => Ok ns
    | ImportAs m n :: l =>
        match find_module t st m with
        | Some (Api l') =>
            match fuel with
            | O => Raise RecursionErr
            | S fuel => match run fuel l' [] with Ok ns' => go l ((n, VModule ns') :: ns) | Raise e => Raise e end
            end
        | Some (Module q s) => go l ((n, VModule [(python_symbol s, VSymbol q s)]) :: ns)
        | None => Raise KeyErr
        end
    | FromImport m n :: l =>
        match find_module t st m with
        | Some (Module q s) => if eqn n (python_symbol s) then go l ((n, VSymbol q s) :: ns) else Raise AttributeErr
        | _ => Raise AttributeErr
        end
    end.
End Run.
(** import p.api *)
Definition import_api (t : tree) (fuel : nat) (p : package) : res names :=
  match walk [] t with
  | Some st => match find_module t st (p ++ [api_name]) with Some (Api l) => run t st fuel l [] | _ => Raise KeyErr end
  | None => Raise RuntimeExc
  end.
