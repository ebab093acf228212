(** Specification vocabulary for the scalar results of a sensitivity study. *)
From Coq Require Import String List Sorted Reals.
From Verif Require Import Num NumR Py M_Vector M_Mesh M_Sens M_Output SpecOutput.
Import ListNotations.
Local Open Scope string_scope.

(** the three figures of a component *)
Inductive figure := Mass | Volume | Area.
Definition figure_name (f : figure) : string := match f with Mass => "mass" | Volume => "volume" | Area => "area" end.
Definition pick {A} (f : figure) (x : A * A * A) : A :=
  match f with Mass => fst (fst x) | Volume => snd (fst x) | Area => snd x end.
Definition place (f : figure) : nat := match f with Mass => 0 | Volume => 1 | Area => 2 end.

Section Study.
  Context {T : Type} {N : Num T}.
  (** t is the quotient of the difference of two tables: row by row if they
      have the same names, otherwise by name in lexical order, without a value
      where one of them has no such name *)
  Definition differs (dp : T) (a b : T * T * T) (c : option T * option T * option T) : Prop :=
    forall f, pick f c = Some (ndiv (nsub (pick f b) (pick f a)) dp).
  Definition difference (dp : T) (nominal perturbed : vtable T) (t : ntable T) : Prop :=
    (map fst perturbed = map fst nominal ->
       map fst t = map fst nominal /\
       forall i n a b, nth_error nominal i = Some (n, a) -> nth_error (map snd perturbed) i = Some b ->
         exists c, nth_error t i = Some (n, c) /\ differs dp a b c) /\
    (map fst perturbed <> map fst nominal ->
       NoDup (map fst t) /\ Sorted (fun a b => String.leb a b = true) (map fst t) /\
       (forall k, In k (map fst t) <-> In k (map fst nominal) \/ In k (map fst perturbed)) /\
       forall k c, In (k, c) t -> match dget nominal k, dget perturbed k with
                                  | Some a, Some b => differs dp a b c
                                  | _, _ => forall f, pick f c = None
                                  end).
  (** in the named table, the figure f in line i of the table of every parameter
      stands in line 3*i+f, in the column of the parameter *)
  Definition arranged (s : dict (ntable T)) (names : list string) (c : content T) : Prop :=
    exists rows, c = NamedCsv (dkeys s) rows /\ length rows = 3 * length names /\
      forall i n f, nth_error names i = Some n ->
        exists vals, nth_error rows (3 * i + place f) = Some (n ++ "_" ++ figure_name f, vals) /\
          Forall2 (fun kt v => exists m r, nth_error (snd kt) i = Some (m, r) /\ v = pick f r) s vals.
  (** the last write to each file *)
  Fixpoint last_write {A} (ws : list (string * A)) (p : string) : option A :=
    match ws with
    | [] => None
    | (q, c) :: ws' => match last_write ws' p with Some c' => Some c' | None => if String.eqb p q then Some c else None end
    end.
  (** a file in a directory *)
  Definition inside (d f : string) : string := d ++ "/" ++ f.
  Definition into {A} (d : string) (l : list (string * A)) : list (string * A) := map (fun fc => (inside d (fst fc), snd fc)) l.
  (** the text of a table without row names: a cell is empty where the row has no such column *)
  Definition shows (c : content T) (t : M_Sens.table T) : Prop :=
    exists cells, c = Csv (t_cols t) cells /\
      Forall2 (fun line row => Forall2 (fun x k => x = dget row k) line (t_cols t)) cells (t_rows t).
  (** a table with a line for each property and a column for each parameter *)
  Definition by_property (s : dict (dict T)) (c : content T) : Prop :=
    exists rows, c = NamedCsv (dkeys s) rows /\
      (forall p ps rest, s = ((p, ps) :: rest)%list -> map fst rows = dkeys ps) /\
      forall k line, In (k, line) rows -> Forall2 (fun x kv => x = dget (snd kv) k) line s.
  (** centre of gravity and moments of inertia: two files for each parameter *)
  Definition vectors (s : dict (dict (list T))) : list (string * content T) :=
    flat_map (fun kv => match dget (snd kv) "cog", dget (snd kv) "moi" with
                        | Some c, Some m => [(fst kv ++ "_cog_sensitivity.txt", Numbers c); (fst kv ++ "_moi_sensitivity.txt", Numbers m)]
                        | _, _ => []
                        end) s.
  (** the files in the directory scalar_sensitivities *)
  Definition scalar_files (out : outputs T) (volmass : content T) (l : list (string * content T)) : Prop :=
    exists named,
      (o_props out = [] -> named = []) /\
      (o_props out <> [] -> exists c, named = [("property_sensitivity.csv", c)] /\ by_property (o_props out) c) /\
      l = (match o_scalar out with [] => [] | s => ("volmass_sensitivity.csv", volmass) :: vectors s end ++ named)%list.
End Study.

(** a table whose last line is the sum of the others *)
Definition totalled (t : vtable R) : Prop :=
  exists rows x, t = (rows ++ [("vehicle", x)])%list /\
    forall f, pick f x = fold_right Rplus 0%R (map (fun r => pick f (snd r)) rows).
(** the sum of the cells that have a value *)
Fixpoint sum_cells (l : list (option R)) : option R :=
  match l with
  | [] => Some 0%R
  | o :: l' => match o, sum_cells l' with Some x, Some y => Some (x + y)%R | _, _ => None end
  end.
