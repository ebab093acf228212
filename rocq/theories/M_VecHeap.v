(** Model of Vector3 objects with identity: the methods of vector.py that
    change their receiver, and the paths and Coons patches that hold references
    to vectors (path.py, surface.py).

    A heap is a list of Vector3 objects, a reference is a position in it.
    Simplification: of the vectors an expression creates only those are
    allocated that can be reached afterwards. *)
From Coq Require Import List ZArith Bool.
From Verif Require Import Num Py M_Vector M_Path M_Surface.
Import ListNotations.

Definition ref := nat.

Section VecHeap.
  Context {T : Type} {N : Num T}.
  Definition vheap := list (vec T).
  Definition VM (A : Type) := vheap -> vheap * res A.
  Definition vret {A} (a : A) : VM A := fun h => (h, Ok a).
  Definition vbind {A B} (m : VM A) (k : A -> VM B) : VM B := fun h =>
    let (h', r) := m h in match r with Ok a => k a h' | Raise e => (h', Raise e) end.

  (* a reference that points nowhere cannot occur in Python; it raises here *)
  Definition vread (l : ref) : VM (vec T) := fun h =>
    (h, match nth_error h l with Some v => Ok v | None => Raise AttributeError end).
  Fixpoint vput (h : vheap) (l : ref) (v : vec T) : vheap :=
    match h, l with
    | [], _ => []
    | _ :: h', O => v :: h'
    | a :: h', S l' => a :: vput h' l' v
    end.
  Definition vwrite (l : ref) (v : vec T) : VM unit := fun h => (vput h l v, Ok tt).
  Definition vnew (v : vec T) : VM ref := fun h => (h ++ [v], Ok (length h)).
  Definition vfail {A} (r : res A) : VM A := fun h => (h, r).

  (* vector.py:126-134 -- __imul__ by a number: coordinates overwritten, returns self *)
  Definition imul (l : ref) (k : T) : VM ref :=
    vbind (vread l) (fun v => vbind (vwrite l (vscale v k)) (fun _ => vret l)).

  (* vector.py:136-144 -- __itruediv__ by a number *)
  Definition itruediv (l : ref) (k : T) : VM ref :=
    vbind (vread l) (fun v => vbind (vwrite l (vdiv v k)) (fun _ => vret l)).

  (* vector.py:179-181 -- normalize *)
  Definition h_normalize (l : ref) : VM unit :=
    vbind (vread l) (fun v => vbind (itruediv l (vabs v)) (fun _ => vret tt)).

  (* self -= c, self += c: Vector3 has no __isub__/__iadd__, so a new object *)
  Definition isub (l c : ref) : VM ref :=
    vbind (vread l) (fun v => vbind (vread c) (fun w => vnew (vsub v w))).
  Definition iadd (l c : ref) : VM ref :=
    vbind (vread l) (fun v => vbind (vread c) (fun w => vnew (vadd v w))).

  (* vector.py:203-217 -- transform_to_global_frame *)
  Definition h_to_global (self n t1 t2 : ref) (c : option ref) : VM ref :=
    vbind (vread self) (fun v => vbind (vread n) (fun n => vbind (vread t1) (fun t1 => vbind (vread t2) (fun t2 =>
    vbind (match c with Some c => vbind (vread c) (fun c => vret (Some c)) | None => vret None end) (fun c =>
    vbind (vwrite self (transform_to_global_frame v n t1 t2 c)) (fun _ => vret self)))))).

  (* vector.py:219-233 -- transform_to_local_frame *)
  Definition h_to_local (self n t1 t2 : ref) (c : option ref) : VM ref :=
    vbind (match c with Some c => isub self c | None => vret self end) (fun self =>
    vbind (vread self) (fun v => vbind (vread n) (fun n => vbind (vread t1) (fun t1 => vbind (vread t2) (fun t2 =>
    vbind (vwrite self (V3 (vdot v n) (vdot v t1) (vdot v t2))) (fun _ => vret self)))))).

  (** ** paths: Line, Bezier, Arc and Polyline objects *)
  Inductive hpath :=
  | HLine (p0 p1 : ref)
  | HBezier (B : list ref)
  | HArc (a b c : ref)
  | HPoly (segments : list hpath) (t_values : list T).

  Fixpoint read_all (ls : list ref) : VM (list (vec T)) :=
    match ls with
    | [] => vret []
    | l :: ls' => vbind (vread l) (fun v => vbind (read_all ls') (fun vs => vret (v :: vs)))
    end.
  (* Vector3(p): a new object with the coordinates of p (vector.py:31-35) *)
  Definition vcopy (l : ref) : VM ref := vbind (vread l) vnew.
  Fixpoint copy_all (ls : list ref) : VM (list ref) :=
    match ls with
    | [] => vret []
    | l :: ls' => vbind (vcopy l) (fun k => vbind (copy_all ls') (fun ks => vret (k :: ks)))
    end.

  (* path.py:35-37, 62-64, 216-219 -- constructors copy the points *)
  Definition new_line (p0 p1 : ref) : VM hpath :=
    vbind (vcopy p0) (fun a => vbind (vcopy p1) (fun b => vret (HLine a b))).
  Definition new_bezier (B : list ref) : VM hpath :=
    vbind (copy_all B) (fun B => vret (HBezier B)).
  Definition new_arc (a b c : ref) : VM hpath :=
    vbind (vcopy a) (fun a => vbind (vcopy b) (fun b => vbind (vcopy c) (fun c => vret (HArc a b c)))).

  (* the values a path object stands for in a heap *)
  Definition look (h : vheap) (l : ref) : vec T := nth l h (V3 n0 n0 n0).
  Fixpoint value_of (h : vheap) (p : hpath) : path T :=
    match p with
    | HLine a b => Line (look h a) (look h b)
    | HBezier B => Bezier (map (look h) B)
    | HArc a b c => Arc (look h a) (look h b) (look h c)
    | HPoly segs tv => polyline_path (mkPoly (map (value_of h) segs) tv)
    end.

  (* path.py:90-109 -- Polyline(segments) with closed=False keeps the segment
     objects; lengths of segments do not change any vector *)
  Definition new_polyline (segs : list hpath) : VM hpath := fun h =>
    (h, let! tv := reset_breakpoints (map (value_of h) segs) in Ok (HPoly segs tv)).

  (* path.py:127-135 -- the loop of Polyline.__call__ over the segments i, i+1, ... *)
  Definition hpoly_loop (call : hpath -> T -> VM ref) (t : T) (n : nat) :=
    fix loop (i : nat) (segs : list hpath) (tv : list T) (f : ref) {struct segs} : VM ref :=
      match segs, tv with
      | s :: segs', tl :: ((tu :: _) as tv') =>
          let t_local := ndiv (nsub t tl) (nsub tu tl) in
          let isokay :=
            if Nat.eqb i 0 then nleb t_local n1
            else if Nat.eqb i (n - 1) then ngtb t_local n0
            else andb (ngtb t_local n0) (nleb t_local n1) in
          vbind (call s t_local) (fun q => vbind (vread q) (fun q =>
          vbind (vread f) (fun w =>
          vbind (vnew (vadd w (vscale q (if isokay then n1 else n0)))) (fun f =>
          loop (S i) segs' tv' f))))
      | _, _ => vret f
      end.

  (* path.py:41-42, 73-82, 221-223, 119-136 -- __call__ *)
  Fixpoint hcall (p : hpath) (t : T) : VM ref :=
    match p with
    | HLine a b => vbind (vread a) (fun p0 => vbind (vread b) (fun p1 =>
        vbind (vfail (p_call (Line p0 p1) t)) vnew))
    | HBezier [b] => vret b
    | HBezier B => vbind (read_all B) (fun B => vbind (vfail (Bezier_call B t)) vnew)
    | HArc a b c => vbind (vread a) (fun a => vbind (vread b) (fun b => vbind (vread c) (fun c =>
        vbind (vfail (p_call (Arc a b c) t)) vnew)))
    | HPoly segs tv =>
        match segs with
        | [] => vfail (Raise IndexError)
        | [s] => hcall s t
        | s0 :: _ =>
            vbind (hcall s0 t) (fun f => vbind (imul f n0) (fun f =>
            hpoly_loop hcall t (length segs) 0 segs tv f))
        end
    end.

  (** ** CoonsPatch objects *)
  Record hcoons := mkHCoons {
    hc_north : hpath; hc_east : hpath; hc_south : hpath; hc_west : hpath;
    hc_p00 : ref; hc_p10 : ref; hc_p11 : ref; hc_p01 : ref; hc_offset : ref }.

  (* copy.deepcopy: references keep their sharing.  Modelled by copying every
     vector of the heap; the copies that are not reachable are garbage. *)
  Definition shift (k : nat) (l : ref) : ref := (k + l)%nat.
  Fixpoint shift_path (k : nat) (p : hpath) : hpath :=
    match p with
    | HLine a b => HLine (shift k a) (shift k b)
    | HBezier B => HBezier (map (shift k) B)
    | HArc a b c => HArc (shift k a) (shift k b) (shift k c)
    | HPoly segs tv => HPoly (map (shift_path k) segs) tv
    end.
  Definition deepcopy_path (p : hpath) : VM hpath := fun h => (h ++ h, Ok (shift_path (length h) p)).
  Definition shift_coons (k : nat) (c : hcoons) : hcoons :=
    mkHCoons (shift_path k (hc_north c)) (shift_path k (hc_east c)) (shift_path k (hc_south c)) (shift_path k (hc_west c))
      (shift k (hc_p00 c)) (shift k (hc_p10 c)) (shift k (hc_p11 c)) (shift k (hc_p01 c)) (shift k (hc_offset c)).
  Definition deepcopy_coons (c : hcoons) : VM hcoons := fun h => (h ++ h, Ok (shift_coons (length h) c)).

  (* surface.py:51-71 -- CoonsPatch(north, east, south, west, offset): each edge
     is deep-copied on its own *)
  Definition new_coons (n e s w : hpath) (offset : ref) : VM hcoons :=
    vbind (deepcopy_path n) (fun n => vbind (deepcopy_path e) (fun e =>
    vbind (deepcopy_path s) (fun s => vbind (deepcopy_path w) (fun w =>
    vbind (hcall s n0) (fun p00 => vbind (hcall s n1) (fun p10 =>
    vbind (hcall n n0) (fun p01 => vbind (hcall n n1) (fun p11 =>
    vbind (hcall w n0) (fun q00 => vbind (hcall e n0) (fun q10 =>
    vbind (hcall w n1) (fun q01 => vbind (hcall e n1) (fun q11 =>
    let check p q k := vbind (vread p) (fun a => vbind (vread q) (fun b =>
      if negb (approximately_equal_vectors a b) then vfail (Raise GenericError) else k)) in
    check p00 q00 (check p10 q10 (check p01 q01 (check p11 q11
      (vret (mkHCoons n e s w p00 p10 p11 p01 offset))))))))))))))))).

  (* surface.py:99-120 -- __call__: south, north, west, east in this order *)
  Definition hcoons_call (c : hcoons) (r s : T) : VM ref :=
    vbind (hcall (hc_south c) r) (fun a => vbind (hcall (hc_north c) r) (fun b =>
    vbind (hcall (hc_west c) s) (fun d => vbind (hcall (hc_east c) s) (fun e =>
    vbind (read_all [a; b; d; e; hc_p00 c; hc_p01 c; hc_p10 c; hc_p11 c; hc_offset c]) (fun l =>
    match l with
    | [a; b; d; e; p00; p01; p10; p11; o] =>
        let edges := vadd (vadd (vadd (vscale a (nsub n1 s)) (vscale b s)) (vscale d (nsub n1 r))) (vscale e r) in
        let corners := vadd (vadd (vadd (vscale (vscale p00 (nsub n1 r)) (nsub n1 s))
                                        (vscale (vscale p01 (nsub n1 r)) s))
                                  (vscale (vscale p10 r) (nsub n1 s)))
                            (vscale (vscale p11 r) s) in
        vnew (vadd (vsub edges corners) o)
    | _ => vfail (Raise AttributeError)
    end))))).

  (* surface.py:122-140 -- __add__, __sub__ *)
  Definition set_offset (c : hcoons) (o : ref) : hcoons :=
    mkHCoons (hc_north c) (hc_east c) (hc_south c) (hc_west c) (hc_p00 c) (hc_p10 c) (hc_p11 c) (hc_p01 c) o.
  Definition hcoons_add (c : hcoons) (v : ref) : VM hcoons :=
    vbind (deepcopy_coons c) (fun c => vbind (iadd (hc_offset c) v) (fun o => vret (set_offset c o))).
  Definition hcoons_sub (c : hcoons) (v : ref) : VM hcoons :=
    vbind (deepcopy_coons c) (fun c => vbind (isub (hc_offset c) v) (fun o => vret (set_offset c o))).

  (* the patch an object stands for *)
  Definition coons_of (h : vheap) (c : hcoons) : coons T :=
    mkCoons (value_of h (hc_north c)) (value_of h (hc_east c)) (value_of h (hc_south c)) (value_of h (hc_west c))
      (look h (hc_p00 c)) (look h (hc_p10 c)) (look h (hc_p11 c)) (look h (hc_p01 c)) (look h (hc_offset c)).
End VecHeap.
Arguments vheap T : clear implicits.
Arguments VM T A : clear implicits.
Arguments hpath T : clear implicits.
Arguments hcoons T : clear implicits.
