(** Model of components/fin.py: generate_patches (153-494).

    scipy.optimize.bisect is a parameter; printing is not modelled. *)
From Coq Require Import ZArith Bool String List.
From Verif Require Import Num Py M_Vector M_Path M_Surface M_Geometry M_Component M_Common.
Import ListNotations.
Local Open Scope string_scope.

Section Fin.
  Context {T : Type} {N : Num T}.
  Notation patches := (dict (surf T)).
  Variable bisect : (T -> res T) -> T -> T -> res T.

  (* fin.py:29-51 *)
  Record fin := mkFin {
    f_p0 : vec T; f_p1 : vec T; f_p2 : vec T; f_p3 : vec T;
    f_thickness : T; f_angle : T;
    f_top : tfun T; f_bot : tfun T;
    f_width : option (T -> res T);
    f_rudder : string; f_rudder_length : T; f_rudder_angle : T;
    f_pivot_angle : T; f_pivot_point : vec T;
    f_offset : option (tfun T)
  }.

  (* fin.py:124-128 *)
  Definition fin_width (f : fin) (t : T) : res T :=
    match f_width f with Some g => g t | None => leading_edge_width_function t end.

  (* p - Vector3(0, 0, fin_thickness / 2) and p + ... *)
  Definition fin_above (f : fin) (p : vec T) : vec T := vsub p (V3 n0 n0 (ndiv (f_thickness f) n2)).
  Definition fin_below (f : fin) (p : vec T) : vec T := vadd p (V3 n0 n0 (ndiv (f_thickness f) n2)).

  (* fin.py:169-171 -- p1p3 *)
  Definition fin_edge (f : fin) : res (path T) := Polyline [Line (f_p1 f) (f_p2 f); Line (f_p2 f) (f_p3 f)].

  (* fin.py:205-207 -- t_B1 *)
  Definition fin_t_B1 (f : fin) (p1p3 : path T) : res T :=
    let! t := bisect (fun t => let! p := p_call p1p3 t in Ok (nsub (vx p) (vx (f_p2 f)))) n0 n1 in
    Ok (nround 6 t).

  (* fin.py:177-198 -- top_patch and bot_patch *)
  Definition fin_panels (f : fin) : res patches :=
    let! plain := CoonsPatch (Line (f_p1 f) (f_p2 f)) (Line (f_p3 f) (f_p2 f)) (Line (f_p0 f) (f_p3 f)) (Line (f_p0 f) (f_p1 f)) in
    let! flipped := CoonsPatch (Line (f_p3 f) (f_p2 f)) (Line (f_p1 f) (f_p2 f)) (Line (f_p0 f) (f_p1 f)) (Line (f_p0 f) (f_p3 f)) in
    Ok [("top_patch", OffsetPatchFunction flipped (f_top f)); ("bot_patch", OffsetPatchFunction plain (f_bot f))].

  (* fin.py:200-254 *)
  Definition fin_leading_edge (f : fin) (p1p3 : path T) (t_B1 : T) : patches :=
    let top_edge := OffsetPathFunction p1p3 (f_top f) in
    let bot_edge := OffsetPathFunction p1p3 (f_bot f) in
    let mean := GeometricMeanPathFunction top_edge bot_edge in
    let le guide t0 t1 side := MeanLeadingEdgePatchFunction mean guide (fin_width f) t0 t1 side in
    [("LE_top_patch_0", le top_edge n0 t_B1 "top"); ("LE_top_patch_1", le top_edge t_B1 n1 "top");
     ("LE_bot_patch_0", le bot_edge n0 t_B1 "bot"); ("LE_bot_patch_1", le bot_edge t_B1 n1 "bot")].

  (* quarter ellipses about p with the thicknesses at p and the width at t *)
  Definition fin_ellipses (f : fin) (p : vec T) (t : T) : res (path T * path T) :=
    let! top := f_top f (vx p) (vy p) None in
    let! bot := f_bot f (vx p) (vy p) None in
    let! width_top := fin_width f t in
    let! width_bot := fin_width f t in
    let! elipse_top := ArcLengthParameterizedPath (ElipsePath p (vz top) width_top "top") in
    let! elipse_bot := ArcLengthParameterizedPath (ElipsePath p (vz bot) width_bot "bot") in
    Ok (elipse_top, elipse_bot).

  (* fin.py:256-317 -- bottom face *)
  Definition fin_bottom (f : fin) : res patches :=
    let p0 := f_p0 f in let p3 := f_p3 f in
    let! (elipse_top, elipse_bot) := fin_ellipses f p3 n1 in
    let p3p3_top := Line (fin_above f p3) p3 in
    let p3p3_bot := Line p3 (fin_below f p3) in
    let! ellip := CoonsPatch p3p3_bot elipse_bot elipse_top p3p3_top in
    let p3p0 := Line p3 p0 in
    let! bot_1 := CoonsPatch (Line (fin_above f p3) (fin_above f p0)) (Line p0 (fin_above f p0)) p3p0 (ReversedPath p3p3_top) in
    let! bot_2 := CoonsPatch p3p0 (Line (fin_below f p0) p0) (Line (fin_below f p3) (fin_below f p0)) (ReversedPath p3p3_bot) in
    Ok [("bot_ellip", RotatedPatch ellip (ndeg2rad (nZ (-90))) "z" p3); ("bot_1", bot_1); ("bot_2", bot_2)].

  (* fin.py:322-411 -- sharp trailing edge *)
  Definition fin_sharp (f : fin) : res patches :=
    let p0 := f_p0 f in let p1 := f_p1 f in
    let! te_top := TrailingEdgePatch p0 p1 (TrailingEdgePath p0 p1 (f_top f)) (f_rudder_length f) (f_rudder_angle f) "top" in
    let! te_bot := TrailingEdgePatch p0 p1 (TrailingEdgePath p0 p1 (f_bot f)) (f_rudder_length f) (f_rudder_angle f) "bot" in
    let! top := f_top f (vx p1) (vy p1) None in
    let! bot := f_bot f (vx p1) (vy p1) None in
    let! (elipse_top, elipse_bot) := fin_ellipses f p1 n0 in
    let z := nmul (f_rudder_length f) (nsin (f_rudder_angle f)) in
    let corner := V3 (nsub (vx p1) (f_rudder_length f)) (vy p1) z in
    let! ellip := CoonsPatch elipse_bot (Line corner (V3 (vx p1) (vy p1) (vz bot)))
                             (Line (V3 (vx p1) (vy p1) (vz top)) corner) elipse_top in
    let TE := V3 (nsub (vx p0) (f_rudder_length f)) (vy p0) z in
    let! triangle := CoonsPatch (Line TE (fin_below f p0)) (Line p0 (fin_below f p0))
                                (Line (fin_above f p0) p0) (Line (fin_above f p0) TE) in
    Ok [("TE_top", te_top); ("TE_bot", te_bot); ("TE_ellipse", ellip); ("TE_triangle", triangle)].

  (* fin.py:413-465 -- flat trailing edge *)
  Definition fin_flat (f : fin) : res patches :=
    let p0 := f_p0 f in let p1 := f_p1 f in
    let! (elipse_top, elipse_bot) := fin_ellipses f p1 n0 in
    let p1p1_top := Line p1 (fin_above f p1) in
    let p1_botp1 := Line (fin_below f p1) p1 in
    let! ellip := CoonsPatch p1p1_top (SubRangedPath elipse_top n1 n0) (SubRangedPath elipse_bot n1 n0) p1_botp1 in
    let! back_1 := CoonsPatch (Line (fin_above f p0) (fin_above f p1)) p1p1_top (Line p0 p1) (Line p0 (fin_above f p0)) in
    let! back_2 := CoonsPatch (Line p0 p1) p1_botp1 (Line (fin_below f p0) (fin_below f p1)) (Line (fin_below f p0) p0) in
    Ok [("TE_ellip", ellip); ("TE_1", back_1); ("TE_2", back_2)].

  (* fin.py:153-494 -- generate_patches: the dictionary self.patches is bound to *)
  Definition fin_patches (f : fin) : res patches :=
    let! p1p3 := fin_edge f in
    let! panels := fin_panels f in
    let! t_B1 := fin_t_B1 f p1p3 in
    let leading := fin_leading_edge f p1p3 t_B1 in
    let! bottom := fin_bottom f in
    let! trailing := (if String.eqb (f_rudder f) "sharp" then fin_sharp f else fin_flat f) in
    let d := (panels ++ leading ++ bottom ++ trailing)%list in
    let d := dmap (fun u => RotatedPatch u (f_pivot_angle f) "y" (f_pivot_point f)) d in
    let d := dmap (fun u => RotatedPatch u (f_angle f) "x" default_point) d in
    Ok (match f_offset f with
        | Some o => dmap (fun u => OffsetPatchFunction u o) d
        | None => d
        end).
End Fin.
Arguments fin T : clear implicits.
