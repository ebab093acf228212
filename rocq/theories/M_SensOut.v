(** Model of the files written by SensitivityStudy.to_csv (utilities.py:448-537).

    The directory outdir=None stands for is a parameter (os.getcwd()).  Files and
    directories are as in M_Output.v. *)
From Coq Require Import Bool String List Arith.
From Verif Require Import Num Py M_Vector M_Mesh M_Sens M_Output.
Import ListNotations.
Local Open Scope string_scope.

Section SensOut.
  Context {T : Type} {N : Num T}.

  (* df.to_csv(index=False) *)
  Definition csv_content (t : M_Sens.table T) : content T := Csv (t_cols t) (map (fun r => map (dget r) (t_cols t)) (t_rows t)).

  (* utilities.py:496-505 -- labels and values of one parameter *)
  Definition row_labels (t : ntable T) : list string :=
    flat_map (fun r => [fst r ++ "_mass"; fst r ++ "_volume"; fst r ++ "_area"]) t.
  Definition row_values (t : ntable T) : list (option T) :=
    flat_map (fun r => [fst (fst (snd r)); snd (fst (snd r)); snd (snd r)]) t.
  (* utilities.py:493-510 -- labels is the list of the last parameter;
     pd.DataFrame raises if a column has another length *)
  Definition volmass_csv (s : dict (ntable T)) : res (content T) :=
    match rev s with
    | [] => Raise UnboundLocalError
    | (_, last) :: _ =>
        let labels := row_labels last in
        if forallb (fun kv => Nat.eqb (length (row_values (snd kv))) (length labels)) s
        then Ok (NamedCsv (dkeys s) (map (fun i => (nth i labels "", map (fun kv => nth i (row_values (snd kv)) None) s))
                                       (seq 0 (length labels))))
        else Raise ValueError
    end.
  (* utilities.py:514-523 *)
  Definition arrays (dir : string) (s : dict (dict (list T))) : list (fop T) :=
    flat_map (fun kv => map (fun key => fun fs => match dlookup (snd kv) key with
                                                 | Ok l => write_file (path_join dir (fst kv ++ "_" ++ key ++ "_sensitivity.txt")) (Numbers l) fs
                                                 | Raise e => (fs, Raise e)
                                                 end) ["cog"; "moi"]) s.
  (* utilities.py:532-535 -- pd.DataFrame of a dictionary of dictionaries with the same keys *)
  Definition property_csv (s : dict (dict T)) : content T :=
    NamedCsv (dkeys s) (map (fun k => (k, map (fun kv => dget (snd kv) k) s)) (match s with [] => [] | kv :: _ => dkeys (snd kv) end)).

  (* utilities.py:448-537 -- to_csv *)
  Definition to_csv_files (cwd : string) (combined_fn : string) (study : option (outputs T)) (outdir : option string)
    (fs : fsys T) : fsys T * res string :=
    match study with
    | None => (fs, Raise GenericError)
    | Some out =>
        let outdir := match outdir with Some d => d | None => cwd end in
        let dir := path_join outdir "scalar_sensitivities" in
        let combined := path_join outdir combined_fn in
        let ts := map (fun kv => (fst kv ++ "_sensitivity.csv", csv_table (dkeys (o_sens out)) (snd kv))) (o_combined out) in
        let ops :=
          (ensure_dir outdir ::
           map (fun ft => write_file (path_join outdir (fst ft)) (csv_content (snd ft))) ts ++
           [write_file combined (csv_content (fold_left concat_tables (map snd ts) no_table))] ++
           match o_scalar out with
           | [] => []
           | s => [ensure_dir dir; (fun fs => match volmass_csv (o_volmass out) with
                                              | Ok c => write_file (path_join dir "volmass_sensitivity.csv") c fs
                                              | Raise e => (fs, Raise e)
                                              end)] ++ arrays dir s
           end ++
           match o_props out with
           | [] => []
           | s => [ensure_dir dir; write_file (path_join dir "property_sensitivity.csv") (property_csv s)]
           end)%list in
        match run_fops ops fs with
        | (fs, Ok _) => (fs, Ok combined)
        | (fs, Raise e) => (fs, Raise e)
        end
    end.
End SensOut.
