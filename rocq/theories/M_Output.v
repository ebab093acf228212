(** Model of the results a vehicle keeps and of everything Vehicle.to_stl
    writes: vehicle.py:24-48, 200-243, 268-281, 304-482 and utilities.py:150-242.

    A file system is a set of directories and a dictionary of files; paths are
    strings, compared literally (no "." or "..", no doubled slashes, no links,
    no permissions).  The current directory and the root exist.  Failures to
    open or create a path are OSError (FileNotFoundError, NotADirectoryError,
    IsADirectoryError and the OSError of pandas are all OSErrors).
    utilities.merge_stls (PyMesh) is a parameter.  Printing is left out. *)
From Coq Require Import ZArith Bool String Ascii List.
From Verif Require Import Num Py M_Vector M_Path M_Surface M_Geometry M_Mesh M_Component M_Vehicle M_Inertia.
Import ListNotations.
Local Open Scope string_scope.

(** the part of a path before its last slash *)
Fixpoint parent (s : string) : option string :=
  match s with
  | EmptyString => None
  | String a s' => match parent s' with
                   | Some p => Some (String a p)
                   | None => if Ascii.eqb a "/" then Some "" else None
                   end
  end.
Fixpoint ends_with_slash (s : string) : bool :=
  match s with EmptyString => false | String a EmptyString => Ascii.eqb a "/" | String _ s' => ends_with_slash s' end.
(* os.path.join(a, b) *)
Definition path_join (a b : string) : string :=
  match b with
  | String c _ => if Ascii.eqb c "/" then b
                  else if (String.eqb a "" || ends_with_slash a)%bool then a ++ b else a ++ "/" ++ b
  | EmptyString => if (String.eqb a "" || ends_with_slash a)%bool then a else a ++ "/"
  end.

Section Output.
  Context {T : Type} {N : Num T}.
  Notation mesh := (list (tri T)).

  (** the summary table _volmass: mass, volume and area by name *)
  Definition table := list (string * (T * T * T)).
  Inductive content :=
  | Stl (m : mesh) | VolMass (t : table) | Cog (v : vec T) | Moi (m : mat T) | Props (d : dict T)
  (* files of a sensitivity study (M_SensOut.v): a table without and with row
     names, an array *)
  | Csv (cols : list string) (rows : list (list (option T)))
  | NamedCsv (cols : list string) (rows : list (string * list (option T)))
  | Numbers (l : list T).
  Record fsys := mkFs { fs_dirs : list string; fs_files : dict content }.

  Definition is_dir (fs : fsys) (p : string) : bool := existsb (String.eqb p) (fs_dirs fs).
  Definition in_dir (fs : fsys) (p : string) : bool :=
    match parent p with None => true | Some EmptyString => true | Some d => is_dir fs d end.
  Definition path_exists (fs : fsys) (p : string) : bool :=
    (is_dir fs p || match dget (fs_files fs) p with Some _ => true | None => false end)%bool.
  Definition write_file (p : string) (c : content) (fs : fsys) : fsys * res unit :=
    if (in_dir fs p && negb (is_dir fs p))%bool then (mkFs (fs_dirs fs) (dset (fs_files fs) p c), Ok tt)
    else (fs, Raise OSError).
  Definition mkdir (p : string) (fs : fsys) : fsys * res unit :=
    if (in_dir fs p && negb (path_exists fs p))%bool then (mkFs (fs_dirs fs ++ [p])%list (fs_files fs), Ok tt)
    else (fs, Raise OSError).

  (** attributes of a vehicle that do not concern its geometry *)
  Record results := mkResults {
    r_on_generation : option (dict T);            (* _analyse_on_generation *)
    r_analysis : option (T * T * vec T * mat T);  (* analysis_results: volume, mass, cog, moi *)
    r_volmass : option table;
    r_properties : dict T
  }.
  Definition new_results : results := mkResults None None None [].
  Definition set_volmass r t := mkResults (r_on_generation r) (r_analysis r) (Some t) (r_properties r).
  Definition set_analysis r a := mkResults (r_on_generation r) (Some a) (r_volmass r) (r_properties r).

  (* vehicle.py:268-281 -- analyse_after_generating *)
  Definition analyse_after_generating (d : dict T) (r : results) : results :=
    mkResults (Some d) (r_analysis r) (r_volmass r) (r_properties r).
  (* vehicle.py:482-486 -- add_property *)
  Definition add_property (k : string) (x : T) (r : results) : results :=
    mkResults (r_on_generation r) (r_analysis r) (r_volmass r) (dset (r_properties r) k x).

  (* vehicle.py:464-478 -- the summary table *)
  Definition summary (p : properties T) (cs : dict (measures T)) : table :=
    (map (fun kc => (fst kc, (m_mass (snd kc), m_volume (snd kc), m_area (snd kc)))) cs
     ++ [("vehicle", (p_mass p, p_volume p, p_area p))])%list.

  Section Parameters.
    Variable mass_properties : mesh -> T -> T * T * vec T * mat T.
    Variable areas : mesh -> list T.
    Variable merge_stls : list string -> string -> fsys -> fsys * res unit.

    (* utilities.py:181-242 and vehicle.py:450-480 on a generated vehicle *)
    Definition analyse_generated (v : vehicle T) (r : results) (densities : dict T) (h : heap T)
      : heap T * results * res (T * T * vec T * mat T) :=
      match measure_all mass_properties areas densities (v_named v) h with
      | (h, Raise e) => (h, r, Raise e)
      | (h, Ok cs) =>
          match composite_properties (map snd cs) with
          | Raise e => (h, r, Raise e)
          | Ok p => (h, set_volmass r (summary p cs), Ok (p_volume p, p_mass p, p_cog p, p_moi p))
          end
      end.

    (* vehicle.py:200-243 -- generate; an empty dictionary of densities is false *)
    Definition generate_full (v : vehicle T) (r : results) (h : heap T) : heap T * vehicle T * results * res unit :=
      match generate v h with
      | (h, v, Raise e) => (h, v, r, Raise e)
      | (h, v, Ok _) =>
          match r_on_generation r with
          | None | Some [] => (h, v, r, Ok tt)
          | Some densities =>
              match analyse_generated v r densities h with
              | (h, r, Raise e) => (h, v, r, Raise e)
              | (h, r, Ok a) => (h, v, set_analysis r a, Ok tt)
              end
          end
      end.

    (* vehicle.py:424-480 with utilities.py:178-179 -- analyse *)
    Definition analyse_full (v : vehicle T) (r : results) (densities : dict T) (h : heap T)
      : heap T * vehicle T * results * res (T * T * vec T * mat T) :=
      let '(h, v, r, g) := if v_generated v then (h, v, r, Ok tt) else generate_full v r h in
      match g with
      | Raise e => (h, v, r, Raise e)
      | Ok _ => let '(h, r, a) := analyse_generated v r densities h in (h, v, r, a)
      end.

    (* component.py:314-331 *)
    Definition write_component (name : string) (i : nat) (h : heap T) (fs : fsys) : heap T * fsys * res unit :=
      match nth_error (comps h) i with
      | None => (h, fs, Raise RuntimeError)
      | Some c =>
          if c_ghost c then (h, fs, Ok tt) else
          match comp_mesh i h with
          | (h, Ok m) => let '(fs, r) := write_file name (Stl m) fs in (h, fs, r)
          | (h, Raise e) => (h, fs, Raise e)
          end
      end.
    (* vehicle.py:334-361 *)
    Fixpoint write_components (v : vehicle T) (prefix : option string) (l : list nat) (types : dict nat)
             (h : heap T) (fs : fsys) : heap T * fsys * res unit :=
      match l with
      | [] => (h, fs, Ok tt)
      | i :: l' =>
          match nth_error (comps h) i with
          | None => (h, fs, Raise RuntimeError)
          | Some c =>
              let no := or_else (dget types (c_type c)) 0 in
              match write_component (stl_name v prefix c no) i h fs with
              | (h, fs, Ok _) => write_components v prefix l' (dset types (c_type c) (no + 1)) h fs
              | (h, fs, Raise e) => (h, fs, Raise e)
              end
          end
      end.

    (** sequences of file operations *)
    Definition fop := fsys -> fsys * res unit.
    Fixpoint run_fops (l : list fop) (fs : fsys) : fsys * res unit :=
      match l with
      | [] => (fs, Ok tt)
      | f :: l' => match f fs with (fs, Ok _) => run_fops l' fs | (fs, Raise e) => (fs, Raise e) end
      end.
    (* vehicle.py:369-371, 391-393 *)
    Definition ensure_dir (d : string) : fop := fun fs => if path_exists fs d then (fs, Ok tt) else mkdir d fs.

    (* vehicle.py:363-384 *)
    Definition write_analysis (r : results) (prefix : string) : list fop :=
      match r_analysis r with
      | None => []
      | Some (_, _, cog, moi) =>
          let dir := prefix ++ "_properties" in
          [ensure_dir dir;
           (fun fs => match r_volmass r with
                      | Some t => write_file (path_join dir (prefix ++ "_volmass.csv")) (VolMass t) fs
                      | None => (fs, Raise AttributeError)
                      end);
           write_file (path_join dir (prefix ++ "_cog.txt")) (Cog cog);
           write_file (path_join dir (prefix ++ "_moi.txt")) (Moi moi)]
      end.
    (* vehicle.py:386-399 *)
    Definition write_properties (r : results) (prefix : string) : list fop :=
      match r_properties r with
      | [] => []
      | d => let dir := prefix ++ "_properties" in
             [ensure_dir dir; write_file (path_join dir (prefix ++ "_properties.csv")) (Props d)]
      end.

    Inductive merge_arg := MBool (b : bool) | MList (l : list string).

    (* vehicle.py:304-422 -- to_stl; the prefix falls back to the name of the
       vehicle from the first of the three blocks that is executed *)
    Definition to_stl_full (v : vehicle T) (r : results) (prefix : option string) (merge : merge_arg)
               (h : heap T) (fs : fsys) : heap T * fsys * res unit :=
      match write_components v prefix (v_components v) [] h fs with
      | (h, fs, Raise e) => (h, fs, Raise e)
      | (h, fs, Ok _) =>
          let prefix := if truthy prefix then or_else prefix "" else v_name v in
          let '(fs, g) :=
            run_fops (write_analysis r prefix ++ write_properties r prefix ++
                      match merge with
                      | MBool false | MList [] => []
                      | MList _ => [fun fs => (fs, Raise NotImplementedError)]
                      | MBool true => [merge_stls (merge_requests v h) prefix]
                      end)%list fs in
          (h, fs, g)
      end.
  End Parameters.
End Output.
Arguments content T : clear implicits.
Arguments fsys T : clear implicits.
Arguments results T : clear implicits.
Arguments table T : clear implicits.
Arguments fop T : clear implicits.
