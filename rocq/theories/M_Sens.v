(** Model of the sensitivity study: utilities.py:245-803 (SensitivityStudy,
    append_sensitivities_to_tri).

    The vehicle constructor is a parameter: any function of its keyword
    arguments and of the Vector3 objects that exist, which may change those
    objects, and which stands for vehicle_constructor(...).create_instance()
    followed by generate().  Dictionaries are objects with identity (the
    caller's dictionary and its copies); keyword arguments are a new dictionary
    that the constructor cannot use to reach the caller's one.

    A pandas DataFrame is a list of rows with their index, a cell without a value
    (NaN) is an absent cell.  Text formatting of numbers, the progress bar, the
    STL files are not modelled.  numpy and pandas never raise on a
    division by zero. *)
From Coq Require Import ZArith Bool String Ascii List.
From Verif Require Import Num Py M_Vector M_Path M_Surface M_Mesh M_VecHeap.
Import ListNotations.
Local Open Scope string_scope.

Section Tables.
  Context {T : Type} {N : Num T}.
  Notation mesh := (list (tri T)).

  (** ** _compare_meshes, utilities.py:537-598 *)
  Record row := mkRow { r_index : nat; r_loc : vec T; r_delta : vec T; r_mag : T; r_sens : vec T }.

  Definition vertices (m : mesh) : list (vec T) := flat_map (fun t => [t0 t; t1 t; t2 t]) m.
  (* difference of two float32 numbers *)
  Definition vdiff32 (a b : vec T) : vec T :=
    V3 (nstore (nsub (vx a) (vx b))) (nstore (nsub (vy a) (vy b))) (nstore (nsub (vz a) (vz b))).
  (* mesh2.vectors - mesh1.vectors, shapes (n2, 3, 3) and (n1, 3, 3), and the
     reshape of mesh1.vectors at 571, as numpy broadcasts them *)
  Definition mesh_diff (m1 m2 : mesh) : res (list (vec T)) :=
    let d x y := map (fun p => vdiff32 (snd p) (fst p)) (combine (vertices x) (vertices y)) in
    if Nat.eqb (length m1) (length m2) then Ok (d m1 m2)
    else match m2 with
         | [t] => Ok (d m1 (map (fun _ => t) m1))
         | _ => Raise ValueError
         end.
  Definition make_row (dp : T) (i : nat) (p d : vec T) : row :=
    mkRow i p d (nsqrt (nadd (nadd (nsq (vx d)) (nsq (vy d))) (nsq (vz d))))
      (V3 (ndiv (vx d) dp) (ndiv (vy d) dp) (ndiv (vz d) dp)).
  Definition veqb (a b : vec T) : bool := neqb (vx a) (vx b) && neqb (vy a) (vy b) && neqb (vz a) (vz b).
  Definition row_eqb (a b : row) : bool :=
    veqb (r_loc a) (r_loc b) && veqb (r_delta a) (r_delta b) && neqb (r_mag a) (r_mag b) && veqb (r_sens a) (r_sens b).
  (* df[~df.duplicated()]: a row goes if an earlier one equals it *)
  Fixpoint dedup (seen l : list row) : list row :=
    match l with
    | [] => []
    | r :: l' => if existsb (row_eqb r) seen then dedup (seen ++ [r]) l' else r :: dedup (seen ++ [r]) l'
    end.
  Definition rows_of (dp : T) (ps ds : list (vec T)) : list row :=
    map (fun x => make_row dp (fst x) (fst (snd x)) (snd (snd x))) (combine (seq 0 (length ps)) (combine ps ds)).
  Definition compare_meshes (m1 m2 : mesh) (dp : T) : res (list row) :=
    let! ds := mesh_diff m1 m2 in Ok (dedup [] (rows_of dp (vertices m1) ds)).

  (** ** _combine, utilities.py:600-616 *)
  Record crow := mkC { c_index : nat; c_loc : option (vec T); c_sens : list (option (vec T)) }.

  (* pd.concat([df, p_s], axis=1): rows are joined by index; rows that only the
     right table has follow those of the left one *)
  Definition find_row (l : list row) (i : nat) : option row := find (fun r => Nat.eqb (r_index r) i) l.
  Definition has_index (l : list crow) (i : nat) : bool := existsb (fun r => Nat.eqb (c_index r) i) l.
  Definition join (width : nat) (l : list crow) (p : list row) : list crow :=
    (map (fun r => mkC (c_index r) (c_loc r) (c_sens r ++ [option_map r_sens (find_row p (c_index r))])) l ++
     map (fun r => mkC (r_index r) None (repeat None width ++ [Some (r_sens r)]))
       (filter (fun r => negb (has_index l (r_index r))) p))%list.
  Fixpoint join_all (width : nat) (l : list crow) (ps : list (list row)) : list crow :=
    match ps with
    | [] => l
    | p :: ps' => join_all (S width) (join width l p) ps'
    end.
  Definition combine_tables (first : list row) (ps : list (list row)) : list crow :=
    join_all 0 (map (fun r => mkC (r_index r) (Some (r_loc r)) []) first) ps.

  Definition combine_component (sens : dict (dict (list row))) (component : string) : res (list crow) :=
    match sens with
    | [] => Raise IndexError
    | (_, s0) :: _ =>
        let! first := dlookup s0 component in
        let! ps := mapM (fun ks => dlookup (snd ks) component) sens in
        Ok (combine_tables first ps)
    end.
  Definition combine_all (components : list string) (sens : dict (dict (list row))) : res (dict (list crow)) :=
    mapM (fun c => let! t := combine_component sens c in Ok (c, t)) components.
End Tables.
Arguments row T : clear implicits.
Arguments crow T : clear implicits.

(* the table _volmass of a vehicle: mass, volume and area by name *)
Notation vtable T := (list (string * (T * T * T))).
(* such a table with cells that may be NaN *)
Notation ntable T := (list (string * (option T * option T * option T))).

Section Study.
  Context {T : Type} {N : Num T}.
  Notation mesh := (list (tri T)).

  (** a parameter value: a number, a Vector3 object, or something that cannot
      be multiplied by a float *)
  Inductive pval := PNum (x : T) | PVec (l : ref) | POther.

  (* what is read from a generated vehicle: _named_components (meshes),
     analysis_results (arrays), properties and _volmass *)
  Record instance := mkInst { i_meshes : dict mesh; i_analysis : option (dict (list T)); i_props : dict T;
                              i_volmass : option (vtable T) }.

  Record sstate := mkS { s_vecs : vheap T; s_dicts : list (dict pval); s_log : list (dict pval * vheap T) }.
  Definition SM (A : Type) := sstate -> sstate * res A.
  Definition sret {A} (a : A) : SM A := fun s => (s, Ok a).
  Definition sbind {A B} (m : SM A) (k : A -> SM B) : SM B := fun s =>
    let (s', r) := m s in match r with Ok a => k a s' | Raise e => (s', Raise e) end.
  Definition sraise {A} (r : res A) : SM A := fun s => (s, r).
  Definition sdict (d : nat) : SM (dict pval) := fun s =>
    (s, match nth_error (s_dicts s) d with Some x => Ok x | None => Raise AttributeError end).
  Fixpoint lput {A} (l : list A) (i : nat) (a : A) : list A :=
    match l, i with
    | [], _ => []
    | _ :: l', O => a :: l'
    | b :: l', S i' => b :: lput l' i' a
    end.
  (* d[k] = v *)
  Definition sset (d : nat) (k : string) (v : pval) : SM unit := sbind (sdict d) (fun x s =>
    (mkS (s_vecs s) (lput (s_dicts s) d (dset x k v)) (s_log s), Ok tt)).
  (* d.copy() *)
  Definition scopy (d : nat) : SM nat := sbind (sdict d) (fun x s =>
    (mkS (s_vecs s) (s_dicts s ++ [x]) (s_log s), Ok (length (s_dicts s)))).
  Definition svec {A} (m : VM T A) : SM A := fun s =>
    let (h, r) := m (s_vecs s) in (mkS h (s_dicts s) (s_log s), r).

  (* a call with the keywords of d and of o: TypeError for a keyword that occurs in both *)
  Definition spread (d o : dict pval) : res (dict pval) :=
    if existsb (fun k => existsb (String.eqb k) (dkeys d)) (dkeys o) then Raise TypeError else Ok (d ++ o)%list.

  Record outputs := mkOut {
    o_sens : dict (dict (list (row T)));
    o_scalar : dict (dict (list T));
    o_props : dict (dict T);
    o_volmass : dict (ntable T);
    o_combined : dict (list (crow T)) }.

  Section Constructor.
    Variable construct : dict pval -> VM T instance.

    Definition make (d : nat) (overrides : dict pval) : SM instance :=
      sbind (sdict d) (fun x => sbind (sraise (spread x overrides)) (fun kw =>
      sbind (fun s => (mkS (s_vecs s) (s_dicts s) (s_log s ++ [(kw, s_vecs s)]), Ok tt)) (fun _ =>
      svec (construct kw)))).

    (* utilities.py:377-381 -- adjusted[p] times 1 + perturbation/100 on a copy, and dp *)
    Definition adjust (d : nat) (p : string) (value : pval) (perturbation : T) : SM (nat * pval) :=
      let factor := nadd n1 (ndiv perturbation (nZ 100)) in
      sbind (scopy d) (fun a => sbind (sdict a) (fun x => sbind (sraise (dlookup x p)) (fun v =>
      sbind (match v with
             | PNum x => sret (PNum (nmul x factor))
             | PVec l => sbind (svec (imul l factor)) (fun l => sret (PVec l))
             | POther => sraise (Raise TypeError)
             end) (fun v' => sbind (sset a p v') (fun _ =>
      sbind (match v', value with
             | PNum x, PNum y => sret (PNum (nsub x y))
             | PVec l, PVec k => sbind (svec (isub l k)) (fun m => sret (PVec m))
             | _, _ => sraise (Raise TypeError)
             end) (fun dp => sret (a, dp))))))).

    (* utilities.py:398-415 -- analysis and property sensitivities *)
    Definition array_sens (dp : pval) (a b : list T) : res (list T) :=
      match dp with
      | PNum dp => Ok (map (fun p => ndiv (nsub (snd p) (fst p)) dp) (combine a b))
      | _ => Raise TypeError
      end.
    Definition scalar_sens (dp : pval) (a b : T) : res T :=
      match dp with
      | PNum dp => if neqb dp n0 then Raise ZeroDivisionError else Ok (ndiv (nsub b a) dp)
      | _ => Raise TypeError
      end.
    Definition analysis_sens (dp : pval) (a : dict (list T)) (b : option (dict (list T))) : res (dict (list T)) :=
      mapM (fun kv => let! y := match b with Some b => dlookup b (fst kv) | None => Raise TypeError end in
                      let! s := array_sens dp (snd kv) y in Ok (fst kv, s)) a.
    (* utilities.py:408-410 -- (perturbed._volmass - nominal._volmass) / dp.  pandas
       subtracts row by row if the names agree; otherwise it joins the rows by
       name in the order of the names, and a name that only one table has gives
       NaN.  Names that occur twice in tables with different names are not
       modelled (the first row is taken). *)
    Fixpoint insert_name (k : string) (l : list string) : list string :=
      match l with
      | [] => [k]
      | a :: l' => if String.leb k a then k :: l else a :: insert_name k l'
      end.
    Definition joined_names (a b : list string) : list string :=
      fold_right insert_name [] (nodup string_dec (a ++ b)%list).
    Definition quotient (dp : T) (a b : option T) : option T :=
      match a, b with Some a, Some b => Some (ndiv (nsub b a) dp) | _, _ => None end.
    Definition quotients (dp : T) (a b : option (T * T * T)) : option T * option T * option T :=
      let c f := quotient dp (option_map f a) (option_map f b) in
      (c (fun x => fst (fst x)), c (fun x => snd (fst x)), c snd).
    Definition subtract_tables (dp : T) (nominal perturbed : vtable T) : ntable T :=
      if list_eq_dec string_dec (map fst perturbed) (map fst nominal)
      then map (fun ab => (fst (fst ab), quotients dp (Some (snd (fst ab))) (Some (snd (snd ab))))) (combine nominal perturbed)
      else map (fun k => (k, quotients dp (dget nominal k) (dget perturbed k)))
             (joined_names (map fst perturbed) (map fst nominal)).
    Definition volmass_sens (dp : pval) (a b : option (vtable T)) : res (ntable T) :=
      match dp, a, b with
      | PNum dp, Some a, Some b => Ok (subtract_tables dp a b)
      | _, _, _ => Raise TypeError
      end.
    (* utilities.py:400-410 *)
    Definition both_sens (dp : pval) (a : dict (list T)) (nominal inst : instance) : res (dict (list T) * ntable T) :=
      let! s := analysis_sens dp a (i_analysis inst) in
      let! t := volmass_sens dp (i_volmass nominal) (i_volmass inst) in Ok (s, t).
    Definition property_sens (dp : pval) (a b : dict T) : res (dict T) :=
      mapM (fun kv => let! y := dlookup b (fst kv) in let! s := scalar_sens dp (snd kv) y in Ok (fst kv, s)) a.
    (* utilities.py:422-431 *)
    Definition mesh_sens (dp : pval) (a b : dict mesh) : res (dict (list (row T))) :=
      mapM (fun kv => let! y := dlookup b (fst kv) in
        let! t := match dp with
                  | PNum dp => compare_meshes (snd kv) y dp
                  | _ => let! ds := mesh_diff (snd kv) y in match ds with [] => Ok [] | _ => Raise TypeError end
                  end in Ok (fst kv, t)) a.

    (* utilities.py:368-431 -- the body of the loop over the parameters *)
    Definition perturb (d : nat) (overrides : dict pval) (perturbation : T) (nominal : instance) (p : string)
      : SM (dict (list (row T)) * option (dict (list T) * ntable T) * option (dict T)) :=
      sbind (sdict d) (fun x => sbind (sraise (dlookup x p)) (fun value =>
      sbind (adjust d p value perturbation) (fun adp =>
      let dp := snd adp in
      sbind (make (fst adp) overrides) (fun inst =>
      sbind (match i_analysis nominal with
             | Some ((_ :: _) as a) => sbind (sraise (both_sens dp a nominal inst)) (fun s => sret (Some s))
             | _ => sret None
             end) (fun an =>
      sbind (match i_props nominal with
             | [] => sret None
             | a => sbind (sraise (property_sens dp a (i_props inst))) (fun s => sret (Some s))
             end) (fun pr =>
      sbind (sraise (mesh_sens dp (i_meshes nominal) (i_meshes inst))) (fun ms =>
      sret (ms, an, pr)))))))).
    Fixpoint perturb_all (d : nat) (overrides : dict pval) (perturbation : T) (nominal : instance) (ps : list string)
      : SM (list (string * (dict (list (row T)) * option (dict (list T) * ntable T) * option (dict T)))) :=
      match ps with
      | [] => sret []
      | p :: ps' => sbind (perturb d overrides perturbation nominal p) (fun r =>
          sbind (perturb_all d overrides perturbation nominal ps') (fun rs => sret ((p, r) :: rs)))
      end.
    Definition somes {A} (l : list (string * option A)) : dict A :=
      flat_map (fun kv => match snd kv with Some a => [(fst kv, a)] | None => [] end) l.

    (* utilities.py:284-444 -- dvdp(parameter_dict, overrides, perturbation) *)
    Definition dvdp (d : nat) (overrides : dict pval) (perturbation : T) : SM outputs :=
      sbind (make d overrides) (fun nominal =>
      sbind (sdict d) (fun x =>
      sbind (perturb_all d overrides perturbation nominal (dkeys x)) (fun rs =>
      let sens := map (fun kr => (fst kr, fst (fst (snd kr)))) rs in
      sbind (sraise (combine_all (dkeys (i_meshes nominal)) sens)) (fun c =>
      sret (mkOut sens (somes (map (fun kr => (fst kr, option_map fst (snd (fst (snd kr))))) rs))
                  (somes (map (fun kr => (fst kr, snd (snd kr))) rs))
                  (somes (map (fun kr => (fst kr, option_map snd (snd (fst (snd kr))))) rs)) c))))).
  End Constructor.
End Study.
Arguments pval T : clear implicits.
Arguments instance T : clear implicits.
Arguments sstate T : clear implicits.
Arguments SM T A : clear implicits.
Arguments outputs T : clear implicits.

(** ** csv files: a header and rows, absent cells are NaN *)
Record table (T : Type) := mkTable { t_cols : list string; t_rows : list (dict T) }.
Arguments mkTable {T}.
Arguments t_cols {T} t.
Arguments t_rows {T} t.

Section Csv.
  Context {T : Type} {N : Num T}.

  Definition xyz : list string := ["x"; "y"; "z"].
  Definition sens_cols (p : string) : list string := ["dxd" ++ p; "dyd" ++ p; "dzd" ++ p].
  Definition cells (names : list string) (v : option (vec T)) : dict T :=
    match v, names with
    | Some v, [a; b; c] => [(a, vx v); (b, vy v); (c, vz v)]
    | _, _ => []
    end.
  Definition crow_cells (params : list string) (r : crow T) : dict T :=
    (cells xyz (c_loc r) ++ flat_map (fun pv => cells (sens_cols (fst pv)) (snd pv)) (combine params (c_sens r)))%list.
  Definition csv_table (params : list string) (rows : list (crow T)) : table T :=
    mkTable (xyz ++ flat_map sens_cols params)%list (map (crow_cells params) rows).

  Definition mem (k : string) (l : list string) : bool := existsb (String.eqb k) l.
  (* pd.concat([a, b]): union of the columns, rows of a then rows of b *)
  Definition concat_tables (a b : table T) : table T :=
    mkTable (t_cols a ++ filter (fun c => negb (mem c (t_cols a))) (t_cols b))%list (t_rows a ++ t_rows b)%list.
  Definition no_table : table T := mkTable [] [].

  (* utilities.py:446-484 -- to_csv: the tables written, in order (the files in
     scalar_sensitivities/ are in M_SensOut.v) *)
  Definition to_csv (params : list string) (combined_fn : string) (sens : option (dict (list (crow T))))
    : res (list (string * table T)) :=
    match sens with
    | None => Raise GenericError
    | Some d =>
        let ts := map (fun kv => (fst kv ++ "_sensitivity.csv", csv_table params (snd kv))) d in
        Ok (ts ++ [(combined_fn, fold_left concat_tables (map snd ts) no_table)])%list
    end.
  (* the content of a file after a sequence of writes *)
  Definition file (ws : list (string * table T)) (name : string) : res (table T) :=
    match find (fun w => String.eqb (fst w) name) (rev ws) with
    | Some w => Ok (snd w)
    | None => Raise GenericError
    end.

  (** ** append_sensitivities_to_tri, utilities.py:619-803 *)
  (* xml: the children of the Piece element; the first one holds the points *)
  Inductive element :=
  | EPoints (lines : list (list T))
  | EData (name : string) (lines : list (list (option T))).

  (* pd.DataFrame(list of lists, columns=[x, y, z]).dropna(): the widest line
     must have three numbers; shorter lines are padded and dropped *)
  Definition read_points (lines : list (list T)) : res (list (vec T)) :=
    match lines with
    | [] => Ok []
    | _ => if Nat.eqb (fold_right Nat.max 0 (map (@List.length T) lines)) 3
           then Ok (flat_map (fun l => match l with [x; y; z] => [V3 x y z] | _ => [] end) lines)
           else Raise ValueError
    end.

  (* del l[l.index(k)] *)
  Fixpoint remove_first (k : string) (l : list string) : list string :=
    match l with
    | [] => []
    | a :: l' => if String.eqb a k then l' else a :: remove_first k l'
    end.

  (* s.split("dxd")[-1]; best is what follows the last separator so far *)
  Fixpoint last_piece (s best : string) : string :=
    match s with
    | String a s1 =>
        match s1 with
        | String b (String c s3) =>
            if Ascii.eqb a "d" && Ascii.eqb b "x" && Ascii.eqb c "d" then last_piece s3 s3 else last_piece s1 best
        | _ => best
        end
    | EmptyString => best
    end.
  (* parameters: every third column name *)
  Fixpoint parameters_of (cols : list string) : list string :=
    match cols with
    | a :: _ :: _ :: l => last_piece a a :: parameters_of l
    | _ => []
    end.

  Definition close (tol a : T) (b : option T) : bool :=
    match b with Some b => nltb (nabs (nsub a b)) tol | None => false end.
  Definition row_match (tol : T) (p : vec T) (r : dict T) : bool :=
    close tol (vx p) (dget r "x") && close tol (vy p) (dget r "y") && close tol (vz p) (dget r "z").
  Definition round_off (rtol : T) (v : option T) : option T :=
    match v with Some v => Some (if nltb (nabs v) rtol then n0 else v) | None => None end.
  (* the data of one point: that of the first row that matches *)
  Definition point_data (tol rtol : T) (cols : list string) (rows : list (dict T)) (p : vec T) : option (list (option T)) :=
    match find (row_match tol p) rows with
    | Some r => Some (map (fun c => round_off rtol (dget r c)) cols)
    | None => None
    end.
  (* the line of a point in the text of parameter number k *)
  Definition data_line (d : option (list (option T))) (k : nat) : list (option T) :=
    match d with
    | Some l => map (fun j => nth (j + 3 * k) l None) [0; 1; 2]
    | None => [Some n0; Some n0; Some n0]
    end.

  (* keys of dict(zip(parameters, ...)) *)
  Fixpoint distinct (seen l : list string) : list string :=
    match l with
    | [] => []
    | a :: l' => if mem a seen then distinct seen l' else a :: distinct (seen ++ [a]) l'
    end.
  Definition param_data (params : list string) (ds : list (option (list (option T)))) : dict (list (list (option T))) :=
    let ks := distinct [] params in
    map (fun ik => (snd ik, map (fun d => data_line d (fst ik)) ds)) (combine (seq 0 (length ks)) ks).

  Record appended := mkApp {
    a_fraction : T;                   (* returned *)
    a_csv : string * table T;         (* combined file *)
    a_piece : list element }.         (* children of Piece in the file written back *)

  Section Files.
    Variable read_csv : string -> res (table T).

    Definition load (names : list string) : res (table T) :=
      let! ts := mapM read_csv names in Ok (fold_left concat_tables ts no_table).

    Definition run_append (names : list string) (piece : list element) (tol rtol : T) (combined : string) : res appended :=
      match piece with
      | EPoints lines :: _ =>
          let! points := read_points lines in
          let! dp := load names in
          let cols := skipn 3 (t_cols dp) in
          let params := parameters_of cols in
          (* dp_df["x"], ... are only evaluated if there is a point *)
          if match points with [] => false | _ => negb (forallb (fun c => mem c (t_cols dp)) xyz) end then Raise KeyError
          else
          let ds := map (point_data tol rtol cols (t_rows dp)) points in
          let matched := length (filter (fun d => match d with Some _ => true | None => false end) ds) in
          match points with
          | [] => Raise ZeroDivisionError
          | _ =>
              let line pd := (cells xyz (Some (fst pd)) ++
                flat_map (fun cv => match snd cv with Some v => [(fst cv, v)] | None => [] end)
                  (combine cols match snd pd with Some l => l | None => map (fun _ => Some n0) cols end))%list in
              let out := mkTable (xyz ++ cols)%list (map line (combine points ds)) in
              let data := param_data params ds in
              let! els := mapM (fun p => let! ls := dlookup data p in Ok (EData (p ++ "_sens") ls)) params in
              Ok (mkApp (ndiv (nnat matched) (nnat (length points))) (combined, out) (piece ++ els)%list)
          end
      | _ => Raise IndexError
      end.

    (* the caller's list afterwards and the result; the list is changed after
       the points have been read *)
    Definition append_sensitivities (names : list string) (piece : list element) (tol rtol : T) (combined : string)
      : list string * res appended :=
      let names' := remove_first combined names in
      (match piece with
       | EPoints lines :: _ => match read_points lines with Ok _ => names' | Raise _ => names end
       | _ => names
       end, run_append names' piece tol rtol combined).
  End Files.
End Csv.
Arguments element T : clear implicits.
Arguments appended T : clear implicits.
