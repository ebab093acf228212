(** Model of vehicles in src/hypervehicle/hangar: wedge.py and finner.py.

    The constructors of component.py:85-140, swept.py:11-41, revolved.py:10-25
    and composite.py:36-49 are modelled on the heap of M_Vehicle.v.  A generator
    (M_Gen.v) makes a program that builds the
    vehicle on any heap.  Reading all attributes first and only then running the
    rest of create_instance is a simplification without observable effect:
    every attribute read has a default. *)
From Coq Require Import ZArith Bool String List.
From Verif Require Import Num Py M_Vector M_Path M_Surface M_Geometry M_Mesh M_Component M_Vehicle M_VecHeap M_Sens M_Gen.
Import ListNotations.
Local Open Scope string_scope.

Section Hangar.
  Context {T : Type} {N : Num T}.
  Notation M := (M (T := T)).

  (* component.py:85-140 -- Component.__init__ *)
  Definition new_object (type : string) (k : kind T) (r : resolution) (name : option string) : M nat :=
    bindM (new_dict []) (fun d =>
      new_comp (mkComp type k d [] [] r None None None no_clustering [] None None true false name 1%Z)).

  (* swept.py:11-41 with close_ends=True *)
  Definition new_swept (sections : list (list (path T))) (r : resolution) (name : option string) : M nat :=
    bindM (lift (Swept_init sections true r)) (fun n =>
      new_object "swept" (Own false (let! l := swept_patches sections n true r in
                                     Ok (sized_patches l, sized_res_r l, sized_res_s l))) r name).
  (* revolved.py:10-25 *)
  Definition new_revolved (line : path T) (r : resolution) (name : option string) : M nat :=
    new_object "revolved" (Own false (Ok (revolved_patches line, [], []))) r name.
  (* composite.py:36-49 *)
  Definition new_composite (r : resolution) (name : option string) : M nat :=
    new_object "composite" (Composite []) r name.

  (* vehicle.add_component(component, ...) *)
  Definition add (v : vehicle T) (i : nat) (a : add_args T) : M (vehicle T) := fun h =>
    match add_component v i a h with
    | (h, v, Ok _) => (h, Ok v)
    | (h, _, Raise e) => (h, Raise e)
    end.
  (* Vehicle() followed by vehicle.py:66-72 -- configure(name, verbosity=1) *)
  Definition configured (name : string) : vehicle T :=
    mkVehicle [] name n0 1%Z false [] [] [] [].
  Definition named (s : string) : add_args T := mkAdd (Some s) None true None None None None false.

  (** keyword arguments of Vector3 left out are 0 *)
  Definition vec2 (x y : T) : vec T := V3 x y n0.

  (** an attribute used in arithmetic: a number; None, a string and the like
      give TypeError. What Vector3-valued attributes would do is left out: they
      give TypeError here. *)
  Definition number (self : attrs (pval T)) (k : string) : res T :=
    let! v := self k in match v with PNum x => Ok x | _ => Raise TypeError end.

  (* name: component.mesh for every named component *)
  Fixpoint named_meshes (l : dict nat) : M (dict (list (tri T))) :=
    match l with
    | [] => ret []
    | (k, i) :: l' => bindM (comp_mesh i) (fun m => bindM (named_meshes l') (fun ms => ret ((k, m) :: ms)))
    end.
  (* utilities.py:343-354, 385-397 -- the instance that a study builds: construct,
     create_instance, generate and the meshes of the named components; no
     analysis, no properties *)
  Definition study_instance (call : pval T -> res (M (vehicle T))) (g : generator (pval T) (M (vehicle T)))
             (h : heap T) (kw : dict (pval T)) : res (instance T) :=
    let! program := make_vehicle call g kw in
    match program h with
    | (_, Raise e) => Raise e
    | (h1, Ok v) =>
        match generate v h1 with
        | (_, _, Raise e) => Raise e
        | (h2, v2, Ok _) =>
            let! ms := snd (named_meshes (v_named v2) h2) in Ok (mkInst ms None [] None)
        end
    end.

  (** ** wedge.py *)
  Definition wedge_section (chord thickness : T) (shift : vec T) : list (path T) :=
    let NW := vec2 n0 (nmul nhalf thickness) in
    let NE := vec2 (nmul (nneg nhalf) chord) n0 in
    let SE := vec2 n0 (nmul (nneg nhalf) thickness) in
    let SW := vec2 (nmul nhalf chord) n0 in
    [Line (vadd NW shift) (vadd NE shift); Line (vadd NE shift) (vadd SE shift);
     Line (vadd SE shift) (vadd SW shift); Line (vadd SW shift) (vadd NW shift)].
  (* wedge.py:38-51 *)
  Definition wedge_sections (wingspan chord thickness : T) : list (list (path T)) :=
    map (fun i => wedge_section chord thickness (V3 n0 n0 (nmul (nmul nhalf (nZ i)) wingspan))) [(-1)%Z; 1%Z].
  (* wedge.py:17-60 -- create_instance *)
  Definition wedge_vehicle (wingspan chord thickness : T) : M (vehicle T) :=
    bindM (new_swept (wedge_sections wingspan chord thickness) (ResInt 10) None) (fun fuselage =>
      add (configured "Wedge") fuselage default_add).
  Definition ParametricWedge : generator (pval T) (M (vehicle T)) :=
    mkGen []
      [SetAttr "wingspan" (fun _ => Ok (PNum n1)); SetAttr "chord" (fun _ => Ok (PNum n1));
       SetAttr "thickness" (fun _ => Ok (PNum (nlit 1 10))); SuperInit]
      (fun self => let! w := number self "wingspan" in let! c := number self "chord" in
                   let! t := number self "thickness" in Ok (wedge_vehicle w c t)).

  (** ** finner.py *)
  (* finner.py:62-73 -- revolve lines of nose, body and base *)
  Definition finner_lines (diameter total_length nose_length : T) : list (path T) :=
    let origin := V3 n0 n0 n0 in
    let nose_base := vadd origin (vec2 nose_length (ndiv diameter n2)) in
    let rocket_base := vadd origin (vec2 total_length (ndiv diameter n2)) in
    [Line origin nose_base; Line nose_base rocket_base;
     Line rocket_base (vsub rocket_base (vec2 n0 (vy rocket_base)))].
  (* finner.py:86-103 -- sections of a fin; cs2 by Line.__add__ *)
  Definition finner_sections (fin_height fin_length max_fin_thickness : T) : list (list (path T)) :=
    let a := vec2 n0 fin_length in
    let b := vec2 n0 n0 in
    let c := vec2 (nmul (nneg nhalf) max_fin_thickness) n0 in
    let d := vec2 (nmul nhalf max_fin_thickness) n0 in
    let up := V3 n0 n0 fin_height in
    [[Line a d; Line d b; Line b c; Line c a];
     [Line_add a d up; Line_add d b up; Line_add b c up; Line_add c a up]].
  (* finner.py:105-109, 114-115 -- transformations of fin i *)
  Definition finner_moves (diameter total_length : T) (i : nat) : list (transformation T) :=
    [("rotate", [ANum (nZ 90); AStr "z"]);
     ("translate", [AVec (V3 total_length n0 (ndiv diameter n2))]);
     ("rotate", [ANum (nZ (Z.of_nat i * 90)); AStr "x"])].
  (* finner.py:113-118 -- one pass of the loop over range(4) *)
  Definition finner_add_fin (diameter total_length : T) (fin : nat) (v : vehicle T) (i : nat) : M (vehicle T) :=
    bindM (deepcopy_comp fin) (fun copy =>
      add v copy (mkAdd (Some ("fin_" ++ str_nat (i + 1))) None true None None
                        (Some (finner_moves diameter total_length i)) None false)).
  Fixpoint for_each {A} (f : A -> nat -> M A) (l : list nat) (a : A) : M A :=
    match l with [] => ret a | i :: l' => bindM (f a i) (for_each f l') end.
  (* finner.py:52-120 -- create_instance *)
  Definition finner_vehicle (diameter total_length nose_length fin_height fin_length max_fin_thickness : T)
    : M (vehicle T) :=
    match finner_lines diameter total_length nose_length with
    | [nose_line; fuselage_line; base_line] =>
        bindM (new_revolved nose_line (ResInt 4) None) (fun nose =>
        bindM (new_revolved fuselage_line (ResInt 4) None) (fun outer =>
        bindM (new_revolved base_line (ResInt 4) None) (fun base =>
        bindM (new_composite (ResInt 8) (Some "fuselage")) (fun fuselage =>
        bindM (composite_add fuselage nose default_add) (fun _ =>
        bindM (composite_add fuselage outer default_add) (fun _ =>
        bindM (composite_add fuselage base default_add) (fun _ =>
        bindM (new_swept (finner_sections fin_height fin_length max_fin_thickness) (ResInt 4) None) (fun fin =>
        bindM (add (configured "Finner") fuselage default_add)
              (for_each (finner_add_fin diameter total_length fin) (seq 0 4))))))))))
    | _ => throw RuntimeError
    end.
  Definition ParametricFinner : generator (pval T) (M (vehicle T)) :=
    mkGen []
      [SetAttr "diameter" (fun _ => Ok (PNum n1)); SetAttr "total_length" (fun _ => Ok (PNum (nZ 10)));
       SetAttr "nose_length" (fun _ => Ok (PNum (nlit 284 100))); SetAttr "fin_height" (fun _ => Ok (PNum n1));
       SetAttr "fin_length" (fun _ => Ok (PNum n1)); SetAttr "max_fin_thickness" (fun _ => Ok (PNum (nlit 8 100))); SuperInit]
      (fun self =>
         let! d := number self "diameter" in let! l := number self "total_length" in let! n := number self "nose_length" in
         let! h := number self "fin_height" in let! fl := number self "fin_length" in let! t := number self "max_fin_thickness" in
         Ok (finner_vehicle d l n h fl t)).

End Hangar.
