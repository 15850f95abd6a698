(** Specification vocabulary for C121 and C122. *)
From Verif Require Export CmdContextModel CommandSpec.
Open Scope Z_scope.

(** The entries of a search path are the strings between its colons. *)
Fixpoint intercalate (sep : text) (l : list text) : text :=
  match l with
  | [] => []
  | [x] => x
  | x :: r => x ++ sep ++ intercalate sep r
  end.
Definition entries (path : text) (dirs : list text) : Prop :=
  dirs <> [] /\ (forall d, In d dirs -> ~ In colon d) /\ path = intercalate [colon] dirs.

(** The file [name] in directory [d]; the empty entry is the current directory. *)
Definition file_in (d name : text) : text :=
  match d with
  | [] => name
  | _ => if last d 0 =? slash then d ++ name else d ++ [slash] ++ name
  end.

(** [p] is the file [name] of the first directory that has an executable one. *)
Definition first_file (ok : text -> bool) (dirs : list text) (name p : text) : Prop :=
  exists pre d post, dirs = pre ++ d :: post /\ p = file_in d name /\ ok p = true
  /\ forall d', In d' pre -> ok (file_in d' name) = false.

(** The search path: the [path] option, or else the PATH of this process, or
    else the system's default. *)
Definition search_path (m : machine) (environ : envdict) (o : opts) : text :=
  match o_path o with
  | Some p => p
  | None => match env_get environ path_var with Some p => p | None => cs_path m end
  end.
