(** Specification vocabulary for the files and results of a vehicle. *)
From Coq Require Import String List Arith Bool.
From Verif Require Import Num Py M_Vector M_Mesh M_Vehicle M_Inertia M_Output SpecAdd SpecFiles.
Import ListNotations.
Local Open Scope string_scope.

(** a path without a slash *)
Definition plain (s : string) : Prop := forall a b, s <> a ++ "/" ++ b.
(** a path that can be opened for writing: it lies in the current directory,
    the root or one of the directories, and is not itself a directory *)
Definition writable (dirs : list string) (p : string) : Prop :=
  ~ In p dirs /\ forall d b, p = d ++ "/" ++ b -> plain b -> d = "" \/ In d dirs.

(** the prefix of the result files, and their directory *)
Definition stem {T} (v : vehicle T) (prefix : option string) : string :=
  match text prefix with Some p => p | None => v_name v end.
Definition folder (P : string) : string := P ++ "_properties".

Section Results.
  Context {T : Type} {N : Num T}.
  Definition has_results (r : results T) : Prop := r_analysis r <> None \/ r_properties r <> [].
  (** results of an analysis come with the summary table *)
  Definition consistent (r : results T) : Prop := r_analysis r <> None -> r_volmass r <> None.
  (** the result files, [at_] telling where each is put *)
  Definition result_files (r : results T) (P : string) (at_ : string -> string) : dict (content T) :=
    (match r_analysis r, r_volmass r with
     | Some (_, _, cog, moi), Some t =>
         [(at_ (P ++ "_volmass.csv")%string, VolMass t); (at_ (P ++ "_cog.txt")%string, Cog cog);
          (at_ (P ++ "_moi.txt")%string, Moi moi)]
     | _, _ => []
     end ++ match r_properties r with [] => [] | d => [(at_ (P ++ "_properties.csv")%string, Props d)] end)%list.
  Definition suffixes : list string := ["_volmass.csv"; "_cog.txt"; "_moi.txt"; "_properties.csv"].
  (** the components can be meshed and their files opened *)
  Definition can_write (v : vehicle T) (prefix : option string) (h : heap T) (dirs : list string) : Prop :=
    (forall i, In i (v_components v) -> (i < List.length (comps h))%nat) /\
    (forall i, In i (v_components v) -> ghost_at h i = false -> is_ok (mesh_of h i)) /\
    (forall f i, In (f, i) (files v prefix h [] (v_components v)) -> writable dirs f).
  (** the files after writing: the result files, the STL files of the meshes
      of h, and those that were there before *)
  Definition holds (v : vehicle T) (prefix : option string) (h : heap T) (before after : dict (content T)) (extra : dict (content T)) : Prop :=
    forall s, match dget extra s with
              | Some c => dget after s = Some c
              | None => match last_named (files v prefix h [] (v_components v)) s with
                        | Some i => exists m, mesh_of h i = Ok m /\ dget after s = Some (Stl m)
                        | None => dget after s = dget before s
                        end
              end.
  (** one more directory *)
  Definition with_dir (dirs : list string) (d : string) (dirs' : list string) : Prop :=
    (In d dirs /\ dirs' = dirs) \/ (~ In d dirs /\ dirs' = (dirs ++ [d])%list).

  (** calls of the methods that touch the results; a call that raises leaves
      the state it has reached *)
  Inductive call := Densities (d : dict T) | Property (k : string) (x : T) | Generate | Analyse (d : dict T)
                  | Transform (ts : list (transformation T)).
  (** the value given last to the property k *)
  Definition last_given (calls : list call) (k : string) (x : T) : Prop :=
    exists before after, calls = (before ++ Property k x :: after)%list /\ forall y, ~ In (Property k y) after.
End Results.
Arguments call T : clear implicits.
