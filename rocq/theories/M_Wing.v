(** Model of components/wing.py.

    scipy.optimize.bisect is a parameter.  The thickness functions are
    required here (None would make the first evaluation raise TypeError); the
    printed messages are not modelled; str.lower/upper are ASCII only. *)
From Coq Require Import ZArith Bool String List.
From Verif Require Import Num Py M_Vector M_Path M_Surface M_Geometry M_Component M_Common.
Import ListNotations.
Local Open Scope string_scope.

Section Wing.
  Context {T : Type} {N : Num T}.
  Notation patches := (dict (surf T)).
  (* scipy.optimize.bisect(f, a, b) *)
  Variable bisect : (T -> res T) -> T -> T -> res T.

  (* wing.py:29-50 -- arguments of Wing *)
  Record wing := mkWing {
    w_A0 : vec T; w_A1 : vec T; w_TT : vec T; w_B0 : vec T;
    w_line : path T;
    w_line_type : string;
    w_tB1 : option T; w_tB2 : option T;
    w_top : tfun T; w_bot : tfun T;
    w_width : option (T -> res T);
    w_LE_type : string;
    w_tail : string;
    w_flap_length : T; w_flap_angle : T;
    w_close : bool
  }.

  (* wing.py:119-124 -- default leading edge function; calling None raises
     TypeError *)
  Definition wing_width (w : wing) (t : T) : res T :=
    match w_width w with
    | Some f => f t
    | None => if String.eqb (w_LE_type w) "custom" then leading_edge_width_function t else Raise TypeError
    end.

  (* wing.py:157-161 -- self.t_B1 *)
  Definition wing_t_B1 (w : wing) : res T :=
    match w_tB1 w with
    | Some t => Ok t
    | None => let! t := bisect (fun t => let! p := p_call (w_line w) t in Ok (nsub (vx p) (vx (w_A1 w)))) n0 n1 in
              Ok (nround 6 t)
    end.
  (* wing.py:163-166 -- self.t_B2: a given t_B2 is replaced by the given t_B1 *)
  Definition wing_t_B2 (w : wing) (t_B1 : T) : option T :=
    match w_tB2 w with
    | None => Some (nmul nhalf (nadd n1 t_B1))
    | Some _ => w_tB1 w
    end.

  (* SubRangedPath whose end may be None: arithmetic with None raises TypeError *)
  Definition sub_to (p : path T) (t0 : T) (t1 : option T) : path T :=
    match t1 with Some t1 => SubRangedPath p t0 t1 | None => mkPath (fun _ => Raise TypeError) (p_len p) end.
  Definition sub_from (p : path T) (t0 : option T) (t1 : T) : path T :=
    match t0 with Some t0 => SubRangedPath p t0 t1 | None => mkPath (fun _ => Raise TypeError) (p_len p) end.

  (* wing.py:186-260 -- _create_planform_patches *)
  Definition wing_planform (w : wing) (t_B1 : T) (t_B2 : option T) : res patches :=
    if String.eqb (lower (w_line_type w)) "bezier" then
      let! B1 := p_call (w_line w) t_B1 in
      let B0B1 := SubRangedPath (w_line w) n0 t_B1 in
      let B1B2 := sub_to (w_line w) t_B1 t_B2 in
      let TTB2 := sub_to (w_line w) n1 t_B2 in
      let! wing0 := CoonsPatch B0B1 (Line (w_A1 w) B1) (Line (w_A0 w) (w_A1 w)) (Line (w_A0 w) (w_B0 w)) in
      let! wing1 := CoonsPatch B1B2 TTB2 (Line (w_A1 w) (w_TT w)) (Line (w_A1 w) B1) in
      let B0B1_flipped := SubRangedPath B0B1 n1 n0 in
      let B1B2_flipped := SubRangedPath B1B2 n1 n0 in
      let! flipped0 := CoonsPatch B0B1_flipped (Line (w_A0 w) (w_B0 w)) (Line (w_A1 w) (w_A0 w)) (Line (w_A1 w) B1) in
      let! flipped1 := CoonsPatch B1B2_flipped (Line (w_A1 w) B1) (Line (w_TT w) (w_A1 w)) TTB2 in
      Ok [("top_patch_0", OffsetPatchFunction flipped0 (w_top w));
          ("top_patch_1", OffsetPatchFunction flipped1 (w_top w));
          ("bot_patch_0", OffsetPatchFunction wing0 (w_bot w));
          ("bot_patch_1", OffsetPatchFunction wing1 (w_bot w))]
    else Raise GenericError.

  Definition wing_flat (w : wing) : bool := String.eqb (upper (w_LE_type w)) "FLAT".

  (* wing.py:262-349 -- _create_leading_edge *)
  Definition wing_leading_edge (w : wing) (t_B1 t_B2 : T) : patches :=
    let top_edge := OffsetPathFunction (w_line w) (w_top w) in
    let bot_edge := OffsetPathFunction (w_line w) (w_bot w) in
    if wing_flat w then
      [("LE_patch0", FlatLeadingEdgePatchFunction top_edge bot_edge n0 t_B1);
       ("LE_patch1", FlatLeadingEdgePatchFunction top_edge bot_edge t_B1 t_B2);
       ("LE_patch2", FlatLeadingEdgePatchFunction top_edge bot_edge t_B1 n1)]
    else
      let mean := GeometricMeanPathFunction top_edge bot_edge in
      let le guide t0 t1 side := MeanLeadingEdgePatchFunction mean guide (wing_width w) t0 t1 side in
      [("LE_top_patch_0", le top_edge n0 t_B1 "top");
       ("LE_top_patch_1", le top_edge t_B1 t_B2 "top");
       ("LE_top_patch_2", le top_edge t_B2 n1 "top");
       ("LE_bot_patch_0", le bot_edge n0 t_B1 "bot");
       ("LE_bot_patch_1", le bot_edge t_B1 t_B2 "bot");
       ("LE_bot_patch_2", le bot_edge t_B2 n1 "bot")].

  Definition wing_TE_top (w : wing) : path T := TrailingEdgePath (w_A0 w) (w_B0 w) (w_top w).
  Definition wing_TE_bot (w : wing) : path T := TrailingEdgePath (w_A0 w) (w_B0 w) (w_bot w).
  Definition wing_TE_mean (w : wing) : path T := GeometricMeanPathFunction (wing_TE_top w) (wing_TE_bot w).
  (* tip of the flap behind the point m *)
  Definition flap_tip (w : wing) (m : vec T) : vec T :=
    V3 (nsub (vx m) (nmul (w_flap_length w) (ncos (w_flap_angle w)))) (vy m)
       (nadd (vz m) (nmul (w_flap_length w) (nsin (w_flap_angle w)))).

  (* wing.py:351-464 -- _create_trailing_edge *)
  Definition wing_trailing_edge (w : wing) : res patches :=
    if String.eqb (w_tail w) "FLAP" then
      let mean := wing_TE_mean w in
      let! top := MeanTrailingEdgePatch mean (wing_TE_top w) (w_flap_length w) (w_flap_angle w) "top" in
      let! bot := MeanTrailingEdgePatch mean (wing_TE_bot w) (w_flap_length w) (w_flap_angle w) "bot" in
      let! t1 := p_call (wing_TE_top w) n1 in
      let! m1 := p_call mean n1 in
      let! b1 := p_call (wing_TE_bot w) n1 in
      let! (west, north) :=
        (if wing_flat w then Ok (Line t1 m1, Line m1 b1)
         else
           let thickness_top := nsub (vz m1) (vz t1) in
           let thickness_bot := nsub (vz m1) (vz b1) in
           if (neqb thickness_top n0 || neqb thickness_bot n0)%bool then Raise GenericError else
           let! width_top := wing_width w n0 in
           let! width_bot := wing_width w n0 in
           let! elipse_top := ArcLengthParameterizedPath (ElipsePath m1 thickness_top width_top "top") in
           let! elipse_bot := ArcLengthParameterizedPath (ElipsePath m1 thickness_bot width_bot "bot") in
           Ok (elipse_top, elipse_bot)) in
      let south := Line (V3 (vx m1) (vy m1) (vz t1)) (flap_tip w m1) in
      let east := Line (flap_tip w m1) (V3 (vx m1) (vy m1) (vz b1)) in
      let! tele := CoonsPatch north east south west in
      Ok [("TE_top_patch", top); ("TE_bot_patch", bot); ("TELE_patch", tele)]
    else Raise GenericError.

  (* wing.py:466-585 -- _close_wing; top0 and bot0 are the patches
     top_patch_0 and bot_patch_0 just stored *)
  Definition wing_closing (w : wing) (top0 bot0 : surf T) : res patches :=
    let at_TT (f : tfun T) := let! o := f (vx (w_TT w)) (vy (w_TT w)) (Some (vz (w_TT w))) in Ok (vadd (w_TT w) o) in
    let! TT_top := at_TT (w_top w) in
    let! TT_bot := at_TT (w_bot w) in
    let TT_mid := vscale (vadd TT_top TT_bot) nhalf in
    let! te_top := p_call (wing_TE_top w) n0 in
    let! a_top := top0 n0 n0 in
    let! te_bot := p_call (wing_TE_bot w) n0 in
    let! a_bot := bot0 n1 n0 in
    let mid := V3 (vx a_bot) (vy a_bot) (ndiv (nadd (vz a_bot) (vz a_top)) n2) in
    let! te_mean := p_call (wing_TE_mean w) n0 in
    let mid_0 := Line te_mean mid in
    let mid_1 := Line mid TT_mid in
    let vert_top := Line a_top mid in
    let vert_bot := Line mid a_bot in
    let! top_0 := CoonsPatch mid_0 vert_top (Line te_top a_top) (Line te_top te_mean) in
    let! top_1 := CoonsPatch mid_1 (Line TT_top TT_mid) (Line a_top TT_top) vert_top in
    let! bot_0 := CoonsPatch (Line te_bot a_bot) vert_bot mid_0 (Line te_mean te_bot) in
    let! bot_1 := CoonsPatch (Line a_bot TT_bot) (Line TT_mid TT_bot) mid_1 vert_bot in
    let! width_top := wing_width w n1 in
    let! width_bot := wing_width w n1 in
    let! elipse_top := ArcLengthParameterizedPath (ElipsePath TT_mid (nsub (vz TT_mid) (vz TT_top)) width_top "top") in
    let! elipse_bot := ArcLengthParameterizedPath (ElipsePath TT_mid (nsub (vz TT_mid) (vz TT_bot)) width_bot "bot") in
    let! ellip := CoonsPatch (SubRangedPath elipse_bot n1 n0) elipse_top (Line TT_mid TT_top) (Line TT_mid TT_bot) in
    let tip := flap_tip w te_mean in
    let! flap := CoonsPatch (Line te_top tip) (Line te_bot tip) (Line te_mean te_bot) (Line te_mean te_top) in
    Ok [("wing_close_top_patch0", top_0); ("wing_close_top_patch1", top_1);
        ("wing_close_bot_patch0", bot_0); ("wing_close_bot_patch1", bot_1);
        ("interior_ellip", RotatedPatch ellip (ndeg2rad (nZ (-90))) "z" TT_mid);
        ("interior_flap_patch", flap)].

  (* wing.py:173-184 -- generate_patches: what is written into self.patches,
     in this order (self.t_B1, self.t_B2 are set by the constructor) *)
  Definition wing_patches (w : wing) : res patches :=
    let! t_B1 := wing_t_B1 w in
    let t_B2 := wing_t_B2 w t_B1 in
    let! planform := wing_planform w t_B1 t_B2 in
    let! t_B2 := match t_B2 with Some t => Ok t | None => Raise TypeError end in
    let leading := wing_leading_edge w t_B1 t_B2 in
    let! trailing := wing_trailing_edge w in
    let! closing :=
      (if w_close w then
         match dget planform "top_patch_0", dget planform "bot_patch_0" with
         | Some top0, Some bot0 => wing_closing w top0 bot0
         | _, _ => Raise KeyError
         end
       else Ok []) in
    Ok (planform ++ leading ++ trailing ++ closing)%list.
End Wing.
Arguments wing T : clear implicits.
