#!/usr/bin/env python3
"""Writes /verif/properties.jsonl.  One P(...) call per property."""
import json, os
OUT = os.path.join(os.path.dirname(__file__), "..", "properties.jsonl")
ROWS = []
V = "src/hypervehicle/geometry/vector.py"
PA = "src/hypervehicle/geometry/path.py"
SU = "src/hypervehicle/geometry/surface.py"
GE = "src/hypervehicle/geometry/geometry.py"
UT = "src/hypervehicle/utilities.py"
VE = "src/hypervehicle/vehicle.py"
CO = "src/hypervehicle/components/component.py"
SW = "src/hypervehicle/components/swept.py"
RE = "src/hypervehicle/components/revolved.py"
CP = "src/hypervehicle/components/composite.py"
PG = "src/hypervehicle/components/polygon.py"
CM = "src/hypervehicle/components/common.py"
WI = "src/hypervehicle/components/wing.py"
FI = "src/hypervehicle/components/fin.py"
GN = "src/hypervehicle/generator.py"


def P(title, statement, quantifier, why, *anchors):
    ROWS.append(dict(id="C%02d" % (len(ROWS) + 1), title=title, statement=statement,
                     quantifier=quantifier, why_tests_cant=why,
                     anchors=[{"file": f, "symbol": s} for f, s in anchors]))


P("Vector3 arithmetic obeys the vector-space and cross-product laws",
  "Addition, subtraction, negation, scaling, dot and cross product of Vector3 satisfy the laws of 3-D Euclidean space: + is commutative/associative with inverse, scaling distributes, cross_product(a,b) is orthogonal to a and b, antisymmetric, and |a x b|^2 = |a|^2|b|^2 - (a.b)^2.",
  "all real vectors a, b, c and scalars", "identities over a continuum of inputs",
  (V, "Vector3.__add__"), (V, "Vector3.__mul__"), (V, "cross_product"), (V, "Vector3.dot"))
P("norm and unit",
  "norm(v) is zero exactly for the zero vector, satisfies |k v| = |k||v| and the triangle inequality; for every non-zero v, v.unit has norm 1 and is parallel to v, and normalize() leaves v equal to v.unit.",
  "all real vectors", "inequality over a continuum",
  (V, "Vector3.norm"), (V, "Vector3.unit"), (V, "Vector3.normalize"), (V, "Vector3.__abs__"))
P("Local/global frame transformations invert each other exactly when (z-y)*t2.y = 0",
  "For an orthonormal right-handed frame (n,t1,t2) at c a user expects transform_to_global_frame to undo transform_to_local_frame. With the code as written the round trip returns the original vector if and only if (z_local - y_local)*t2.y = 0; otherwise the y-coordinate is off by exactly (y_local - z_local)*t2.y.",
  "all vectors, all orthonormal frames, all origins", "the defect only shows for frames with t2.y != 0; tests use axis-aligned frames",
  (V, "Vector3.transform_to_global_frame"), (V, "Vector3.transform_to_local_frame"))
P("transform_to_local_frame mutates its receiver if and only if no origin is given",
  "Calling v.transform_to_local_frame(n,t1,t2) changes v in place; v.transform_to_local_frame(n,t1,t2,c) leaves v unchanged and returns a fresh vector. Every other object in the heap keeps its coordinates in both cases.",
  "all heaps, all vectors, all frames", "aliasing statement about every other live object",
  (V, "Vector3.transform_to_local_frame"))
P("Line runs from p0 to p1 at constant speed",
  "Line(p0,p1)(0) = p0, (1) = p1, every point lies at distance |t|*length from p0, length = |p1-p0|, and (Line + offset)(t) = Line(t) + offset. In IEEE binary64 the end points are exact for all finite end points.",
  "all end points, all parameters", "end points must be exact for every double, otherwise neighbouring patches crack",
  (PA, "Line.__call__"), (PA, "Line.length"), (PA, "Line.__add__"))
P("Bezier evaluation equals the Bernstein form",
  "For any non-empty list of control points Bezier(B)(t) equals sum_i C(n,i)(1-t)^(n-i) t^i B_i; in particular it starts at B[0] and ends at B[-1]; an empty list makes evaluation raise IndexError.",
  "all control-point lists of any length, all t", "unbounded control point count",
  (PA, "Bezier.__call__"))
P("Bezier stays inside the hull of its control points",
  "For t in [0,1] every linear functional of Bezier(B)(t) lies between its minimum and maximum over the control points (hence each coordinate does), and evaluation commutes with affine maps of the control points.",
  "all control polygons, all half-spaces, all t in [0,1]", "quantifies over all half-spaces and all lengths",
  (PA, "Bezier.__call__"))
P("Polyline breakpoints partition [0,1]",
  "When all segment lengths are positive, the breakpoints of Polyline(segments) start at 0, end at 1, are strictly increasing, and are spaced proportionally to the segment lengths; Polyline.length is the sum of the segment lengths.",
  "all segment lists with positive lengths", "unbounded number of segments",
  (PA, "Polyline.reset_breakpoints"), (PA, "Polyline.length"))
P("Polyline evaluates exactly one segment",
  "For segments of positive length, Polyline(t) equals segments[k](local t) for exactly the segment k whose parameter interval contains t (the earlier one at a breakpoint; first/last segment extrapolate), so at breakpoint k it returns the end of segment k, it starts at segments[0](0) and ends at segments[-1](1).",
  "all segment lists, all t", "the additive 0/1 masking must select one and only one segment for every t",
  (PA, "Polyline.__call__"))
P("Polyline(closed=True) does not close an open chain",
  "closed=True appends Line(start, end) rather than Line(end, start); so for an open chain (gap > tolerance) the resulting path still ends at the original end point, i.e. path(1) = last end != path(0), and jumps back to the start at the last breakpoint.",
  "all open chains of segments", "tests only evaluate an already closed chain",
  (PA, "Polyline.__init__"))
P("Evaluating a Polyline can overwrite its own first segment",
  "Evaluating a multi-segment Polyline multiplies the vector returned by segments[0] by 0 in place. That is harmless exactly when the first segment returns a fresh vector; when it is a single-control-point Bezier the stored control point itself is overwritten, so the same call returns different results the second time.",
  "all heaps and all evaluation histories", "needs aliasing between returned and stored vectors",
  (PA, "Polyline.__call__"), (PA, "Bezier.__call__"), (V, "Vector3.__imul__"))
P("Spline interpolates its points in order",
  "Every Spline through m+1 points consists of m cubic segments; segment i starts at points[i] and ends at points[i+1] regardless of whether the internal iteration converged. With closed=True and distinct end points the first point is appended at the end.",
  "all point lists, all iteration outcomes", "must hold for every (possibly unconverged) iteration result",
  (PA, "Spline.__init__"))
P("Arc has constant radius and hits both ends when its plane normal has no y component",
  "If |a-c| = |b-c| and (a-c)x(b-c) is non-zero with zero y-component then Arc(t) is at distance |a-c| from c for all t, starts at a, ends at b, and its length is radius times the angle between a-c and b-c.",
  "all centres, radii, end points with normal.y = 0, all t", "trigonometric identity over a continuum",
  (PA, "Arc.evaluate_position_and_length"))
P("Arc misses its end point by exactly (r sin theta) n.y in y when the plane is tilted",
  "In general Arc(t) equals the true circular arc point displaced in y by sin(t*theta)*r*n.y where n is the unit normal of the plane; hence Arc(1) = b iff n.y * sin(theta) = 0.",
  "all arcs", "needs the exact error term for every plane",
  (PA, "Arc.evaluate_position_and_length"), (V, "Vector3.transform_to_global_frame"))
P("Arc rejects unequal radii and collinear points",
  "Arc evaluation raises iff | |a-c| - |b-c| | > 1e-5 or (a-c)x(b-c) = 0 (180 degree or degenerate arcs); otherwise it returns a point.",
  "all triples of points", "error behaviour on all inputs",
  (PA, "Arc.evaluate_position_and_length"))
P("Arc-length reparameterisation preserves ends and order",
  "ArcLengthParameterizedPath(p,n) maps t=0 to parameter 0 and t=1 to parameter 1, is monotone, maps [0,1] into [0,1] and therefore starts and ends where p does, whenever the sampled length is positive and the first sample interval is non-degenerate; n<1 is rejected.",
  "all paths, all n, all t", "monotonicity of a table inverse for every path",
  (PA, "ArcLengthParameterizedPath.underlying_t"), (PA, "ArcLengthParameterizedPath.set_arc_lengths"))
P("Arc-length reparameterisation equalises sampled arc length",
  "At every sample k, evaluating the inverse table at arc_lengths[k]/L gives a parameter with sampled arc length arc_lengths[k]: the table is a right inverse of the piecewise-linear arc length function.",
  "all paths, all sample counts", "continuum of targets",
  (PA, "ArcLengthParameterizedPath.underlying_t"))
P("Sampled path length is a lower bound that dominates the chord",
  "Path.length(n) is non-negative, at least |p(1)-p(0)|, and for straight lines traversed monotonically equals the true length; n=0 raises ZeroDivisionError.",
  "all paths, all n", "triangle inequality over n samples",
  (PA, "Path.length"))
P("Roberts clustering is a monotone bijection of [0,1] fixing the ends",
  "For beta > 1 and any end flags, clustered_roberts maps 0 to 0, 1 to 1, is strictly increasing and stays in [0,1]; end1 and end2 variants are mirror images; with no flags or beta<1 it is the identity; beta = 1 with a flag set divides by zero.",
  "all eta in [0,1], all beta, all flags", "monotonicity over reals",
  (PA, "roberts"), (PA, "clustered_roberts"), (PA, "RobertsFunction.__call__"))
P("distribute_points yields n+1 ordered points spanning [t1,t2]",
  "distribute_points(t1,t2,n,..) has n+1 entries, the first is t1 and the last t2, and the sequence is strictly monotone from t1 to t2 for n >= 1 and t1 != t2.",
  "all n, t1, t2, beta != 1 and flags", "unbounded n",
  (PA, "distribute_points"))
P("SubRangedPath / ReversedPath reparameterise but do not change length()",
  "SubRangedPath(p,a,b) starts at p(a), ends at p(b), nested sub-ranges compose, reversing twice is the identity; but length() always reports the full underlying length, so it is wrong for every proper sub-range of a line of positive length.",
  "all paths, all ranges", "compositional law over all paths",
  (GE, "SubRangedPath.__call__"), (GE, "SubRangedPath.length"), (GE, "ReversedPath"))
P("ElipsePath lies on its ellipse",
  "Every point of ElipsePath satisfies (y/a)^2 + (z/b)^2 = 1 and x = centre.x relative to the centre, for non-zero width and thickness and both sides; other side names raise.",
  "all centres, widths, thicknesses, parameters", "algebraic identity over reals",
  (GE, "ElipsePath.__call__"))
P("CoonsPatch interpolates its four edges",
  "For edges that meet exactly at the corners, CoonsPatch(r,0)=south(r), (r,1)=north(r), (0,s)=west(s), (1,s)=east(s), each plus the offset. If the corners match only approximately the deviation on an edge is the linear blend of the two corner mismatches.",
  "all edges, all r,s", "for every edge path",
  (SU, "CoonsPatch.__call__"), (SU, "CoonsPatch.__init__"))
P("CoonsPatch construction accepts exactly closed quadrilaterals",
  "With four edges construction succeeds iff each pair of edge ends agrees within 1e-5 + 1e-2*|alt| per coordinate; with four corners it always succeeds and gives the bilinear patch; otherwise it raises.",
  "all edge/corner arguments", "input validation over all inputs",
  (SU, "CoonsPatch.__init__"), (V, "approximately_equal_vectors"))
P("CoonsPatch + v displaces a copy",
  "(patch + v)(r,s) = patch(r,s) + v, (patch - v) undoes it, and the original patch (and the shared default offset) is unchanged.",
  "all patches, offsets, parameters", "non-interference",
  (SU, "CoonsPatch.__add__"), (SU, "CoonsPatch.__sub__"))
P("RotatedPatch is a rigid motion",
  "RotatedPatch about x, y or z through a point preserves distances between surface points and orientation (determinant +1), fixes the axis line, angles add under composition, and rotation by -angle undoes it; any other axis name makes evaluation raise UnboundLocalError.",
  "all surfaces, angles, points, parameters", "trigonometric identities over a continuum",
  (GE, "RotatedPatch.__call__"))
P("MirroredPatch is an orientation-reversing involution",
  "MirroredPatch about x, y or z preserves distances, reverses orientation (determinant -1), fixes the mirror plane pointwise and is an involution; an unknown axis is silently the identity.",
  "all surfaces, parameters, axis strings", "for every axis string",
  (GE, "MirroredPatch.__call__"))
P("CurvedPatch moves points by rotating thickness about the curvature slope",
  "CurvedPatch in x (or y) maps (x,y,0) to (x,y,f(x,y)); a point at height z stays at distance |z| from the mapped base point, along the normal (-f',1)/sqrt(1+f'^2); without both functions it raises; any other direction returns None.",
  "all surfaces, curvature functions and parameters", "continuum, user functions",
  (GE, "CurvedPatch.__call__"))
P("RevolvedPatch and ConePatch have the right radius everywhere",
  "Every RevolvedPatch point keeps the x and the distance from the x-axis of the generating line point; ConePatch points at r are at x = lerp(x0,x1) and distance |lerp(r0,r1)| from the axis. Consecutive patches of a RevolvedComponent share their seams and the fourth closes onto the first.",
  "all lines, angles and parameters", "trigonometry over reals",
  (GE, "RevolvedPatch.__call__"), (GE, "ConePatch.__call__"), (RE, "RevolvedComponent.generate_patches"))
P("BluntConePatch can never be evaluated",
  "Evaluating any BluntConePatch raises AttributeError, whatever its parameters.",
  "all parameters", "for all arguments",
  (GE, "BluntConePatch.__call__"))
P("SweptPatchfromEdges interpolates its sections",
  "For n >= 2 edges and r in [0,1], the patch passes through edge k at r=k/(n-1), is the linear blend of the two neighbouring edges in between, and is continuous across sections; r>1 raises IndexError and r<0 extrapolates from the wrong (last and first) edges.",
  "all edge lists, all r,s", "unbounded number of edges",
  (GE, "SweptPatchfromEdges.__call__"))
P("SweptPatch interpolates ascending cross sections",
  "With strictly ascending section origins SweptPatch(r,s) has sweep coordinate min+r*(max-min) and blends the perimeters of the two bounding sections; sections all at one location are rejected; sections not in ascending order can raise IndexError or extrapolate.",
  "all lists of cross sections", "unbounded number of sections",
  (GE, "SweptPatch.__call__"), (GE, "SweptPatch.__init__"))
P("SurfacePerimeter walks the boundary once",
  "For t in [0,1] SurfacePerimeter evaluates the surface only at boundary parameters, in the order south, east, north, west, and closes: t=1 gives the same point as t=0.",
  "all surfaces, all t in [0,1]", "continuum of t",
  (GE, "SurfacePerimeter.__call__"))
P("SpherePatch points lie on the sphere and faces join up",
  "For r,s in [0,1] every SpherePatch point is at distance exactly R from the centre, and the six faces of Sphere agree along all twelve shared edges.",
  "all radii, centres, faces, parameters", "square-root identity over a continuum",
  (GE, "SpherePatch.__call__"), (PG, "Sphere.generate_patches"))
P("CubePatch faces lie on the cube and join up",
  "For r,s in [0,1] CubePatch points have max-norm distance exactly |a| from the centre and the six faces agree along shared edges; unknown faces raise ValueError.",
  "all sizes, centres, faces, parameters", "continuum",
  (GE, "CubePatch.__call__"), (PG, "Cube.generate_patches"))
P("Cube and Sphere meshes are not consistently oriented",
  "Opposite faces are parameterised identically, so the mesh of a Cube is not a consistently oriented closed surface at any resolution: directed edges are duplicated, and its signed volume is 8 a^2 c (a multiple of the centre coordinates) rather than 8 a^3; for a cube at the origin it is 0.",
  "all sizes, centres, resolutions n >= 1", "every resolution",
  (PG, "Cube.generate_patches"), (GE, "CubePatch.__call__"), (UT, "surfce_to_stl"))
P("surfce_to_stl emits the four triangles of every cell, in order",
  "Meshing an ni x nj patch yields exactly 4*ni*nj triangles; triangle 4*(i*nj+j)+k is the k-th triangle of cell (i,j) whose corners are the surface at the grid parameters and whose apex is the mean of the cell corners; mirror_y negates y of every vertex and nothing else. ni=0 or nj=0 raises ZeroDivisionError.",
  "all surfaces, all ni, nj, in any arithmetic", "every resolution",
  (UT, "surfce_to_stl"))
P("Patch meshes are crack-free",
  "In the mesh of one patch, at any resolution and in any arithmetic (in particular IEEE), each directed edge not on the patch outline is matched by its opposite; what remains is exactly the closed outline south, east, north reversed, west reversed.",
  "all surfaces and resolutions, any arithmetic", "every resolution, bit-exact",
  (UT, "surfce_to_stl"))
P("default_vertex_func is a monotone grid from lb to ub",
  "default_vertex_func(lb,ub,steps,spacing) has `steps` entries, starts at lb, ends at ub and is strictly monotone, for steps >= 2, spacing > 0, lb < ub; steps=1 raises ZeroDivisionError. In binary64 the last entry may be below ub (e.g. 50 steps), so patches need not end exactly at parameter 1.",
  "all bounds, steps and positive spacings", "unbounded steps; rounding",
  (UT, "default_vertex_func"))
P("j-direction clustering samples the wrong number of points",
  "With a j_clustering_func the s-grid has ni+1 points spread over [0,1] instead of nj+1: if nj > ni meshing raises IndexError; if nj < ni the mesh covers only s in [0, f(nj/ni)]; it covers the patch iff ni = nj.",
  "all surfaces, clustering functions and resolutions", "all resolution pairs",
  (UT, "surfce_to_stl"))
P("Per-edge resolution dictionaries are ignored in the s direction",
  "Component.surface with a non-integer (dict) resolution meshes every patch with patch_res_r[k] in both directions, so the s-resolution given for any edge has no effect.",
  "all components and resolution dictionaries", "for all dicts",
  (CO, "Component.surface"), (SW, "SweptComponent.generate_patches"))
P("A closed SweptComponent is watertight",
  "With close_ends=True, any number of cross sections made of four exactly connected edges, and any integer resolution n >= 1, the component mesh is watertight and consistently oriented: each directed edge occurs as often as its reverse.",
  "all cross-section lists, all resolutions", "unbounded sections and resolution",
  (SW, "SweptComponent.generate_patches"), (GE, "SweptPatchfromEdges.__call__"), (SU, "CoonsPatch.__call__"))
P("SweptComponent validation",
  "Construction raises unless all sections have the same number of edges, consecutive edges meet within 1e-12 per coordinate, close_ends implies 4 edges, and dict resolutions agree on opposite edges; every accepted component with exactly meeting edges generates its patches without error.",
  "all section lists and options", "input validation over all inputs",
  (SW, "SweptComponent._check_options"))
P("A RevolvedComponent whose line starts and ends on the axis is watertight",
  "If the generating line starts and ends on the x-axis, the mesh of the RevolvedComponent is watertight at every resolution.",
  "all generating lines with ends on the axis, all resolutions", "every resolution and line",
  (RE, "RevolvedComponent.generate_patches"))
P("stl_check decides watertight orientation",
  "For meshes without degenerate triangles, stl_check(project_area=False) returns True iff all directed edges are distinct and each has its reverse; matching_lines=False raises UnboundLocalError.",
  "all meshes", "decision procedure soundness and completeness",
  (CO, "Component.stl_check"))
P("Watertight meshes have a well-defined volume and zero net area",
  "For a watertight mesh the sum of triangle area vectors is zero and the signed volume is translation invariant; rotation preserves signed volume, mirroring negates it.",
  "all watertight meshes and rigid motions", "every mesh",
  (UT, "assess_inertial_properties"), (CO, "Component.stl_check"), (GE, "RotatedPatch"), (GE, "MirroredPatch"))
P("append_reflection makes the signed volume vanish",
  "Reflecting a component with append_reflection=True adds mirrored patches with reversed orientation: the signed volume of the resulting mesh is exactly 0 for every component, and with append_reflection=False it is the negative of the original.",
  "all components, axes and resolutions", "every component",
  (CO, "Component.reflect"), (GE, "MirroredPatch"))
P("stl_repair only merges nearby vertices",
  "stl_repair never changes the number of triangles, moves every vertex coordinate by less than twice small_distance, and leaves isolated vertices alone; but vertices closer than small_distance are not always merged (a chain 0, 0.6d, 1.2d splits), contrary to its documentation.",
  "all meshes and distances", "every mesh",
  (CO, "Component.stl_repair"))
P("Vehicle.add_component bookkeeping",
  "After any history of add_component calls: components lists the accepted components in order, the per-type counts are the numbers of components of that type, the enumerated dict has one entry per component (type_k is the k-th of its type), and a component of a disallowed type is rejected leaving the vehicle unchanged.",
  "all histories of calls", "unbounded histories",
  (VE, "Vehicle.add_component"))
P("Named components: later additions silently replace earlier ones with the same name",
  "The name table maps each name to the most recently added component with that name. All components are reachable by name iff the effective names are pairwise distinct; effective names of unnamed components never clash with each other.",
  "all histories of calls", "unbounded histories, string formatting",
  (VE, "Vehicle.add_component"))
P("Vehicle.generate applies the documented pipeline to every component",
  "After generate() each patch of a component is: modifier offset, then curvatures in order, then rotation by the vehicle angle about y, then reflection, then component transformations in order, then vehicle transformations in order, applied to the generated patch.",
  "all vehicles, options and patches", "all option combinations",
  (VE, "Vehicle.generate"), (CO, "Component.reflect"), (CO, "Component.curve"))
P("generate() is idempotent only without appended reflections",
  "Calling generate() twice yields the same patches when generate_patches rebuilds the dictionary or no reflection is configured; for Wing/Revolved/Swept components with a reflection the second call re-processes stale mirrored patches and adds keys ending in _mirrored_mirrored.",
  "all components and options", "histories of calls",
  (VE, "Vehicle.generate"), (CO, "Component.reflect"))
P("Cached meshes are refreshed by Vehicle.transform but not by Component.rotate/translate",
  "After Vehicle.transform the next mesh is built from the transformed patches; after Component.rotate/translate/reflect, or a second generate without vehicle transformations, mesh still returns the triangles computed before.",
  "all histories of mesh accesses and transformations", "histories",
  (CO, "Component.mesh"), (VE, "Vehicle.transform"))
P("Transforming before generating is refused",
  "Vehicle.transform raises and changes nothing unless generate() has completed; a tuple is treated as a one-element list.",
  "all vehicles and transformations", "state machine",
  (VE, "Vehicle.transform"), (VE, "Vehicle.add_vehicle_transformations"))
P("to_stl file names",
  "to_stl writes exactly one file per non-ghost component, named by the documented scheme; unnamed components of a vehicle always get distinct files; two components sharing a name overwrite one another; ghosts are never written but consume an index.",
  "all vehicles and prefixes", "all histories and strings",
  (VE, "Vehicle.to_stl"), (CO, "Component.to_stl"))
P("merge=True reads only files that were written when every component is named and no prefix is given",
  "to_stl(merge=True) asks for name.stl of every non-ghost named component; these are exactly the files just written if all components carry a name and no prefix is used, and otherwise some requested file was never written.",
  "all vehicles and prefixes", "all histories",
  (VE, "Vehicle.to_stl"), (UT, "merge_stls"))
P("Composite components merge children without key collisions",
  "The patches of a CompositeComponent are exactly the patches of its children, one entry per (child, key) under key_index, with no collisions for any child keys and any number of children.",
  "all lists of children and keys", "unbounded children, arbitrary strings",
  (CP, "CompositeComponent.generate_patches"))
P("Composite components ignore options given for their children",
  "reflection, curvature and transformation options passed to CompositeComponent.add_component have no effect on the composite's patches after generation.",
  "all children and options", "all options",
  (CP, "CompositeComponent.add_component"), (CP, "CompositeComponent.generate_patches"))
P("Inertial totals",
  "analyse: total mass, volume and area are the sums over the name table; the composite c.o.g. is the mass-weighted mean (hence inside the hull of component cogs for positive masses and translation equivariant), zero total mass fails, and the results do not depend on insertion order; a missing density raises KeyError.",
  "all vehicles and densities", "unbounded component sets",
  (UT, "assess_inertial_properties"))
P("Composite inertia violates the parallel-axis theorem",
  "The composite inertia adds m*r_j^2 to every entry of column j of each component tensor; it equals the parallel-axis result iff all component offsets vanish (for a single component it is right, for two distinct cogs it is wrong and generally asymmetric).",
  "all component masses, cogs, inertias", "algebraic statement",
  (UT, "assess_inertial_properties"))
P("Sensitivities perturb one parameter at a time and leave the caller's dictionary alone",
  "dvdp calls the constructor once nominally and once per parameter, with exactly that (scalar) parameter scaled by 1+p/100 and all others nominal plus overrides; the caller's dictionary is unchanged. With a Vector3-valued parameter the caller's object is scaled in place and dp is the zero vector.",
  "all parameter dictionaries", "aliasing and histories",
  (UT, "SensitivityStudy.dvdp"))
P("Finite differences are exact for affine dependence",
  "If every vertex depends affinely on the parameter then the reported sensitivity equals the exact derivative for every non-zero perturbation; rows list the nominal vertices in order with duplicates removed.",
  "all meshes, parameters, perturbations", "continuum",
  (UT, "SensitivityStudy._compare_meshes"))
P("Combining parameters misaligns when deduplication differs",
  "_combine joins the per-parameter tables on the original row index: rows that were removed for the first parameter but kept for another appear without coordinates (NaN); if all parameters keep the same rows the result is aligned row by row.",
  "all families of per-parameter tables", "all tables",
  (UT, "SensitivityStudy._combine"), (UT, "SensitivityStudy._compare_meshes"))
P("append_sensitivities_to_tri matches points in order",
  "Each mesh point receives the data of the first sensitivity row within tolerance in all three coordinates (values below the rounding tolerance zeroed) or zeros if there is none; the output has one row per point in order; match_fraction is the fraction matched and lies in [0,1]; a zero-point file raises ZeroDivisionError.",
  "all point lists and tables", "unbounded data",
  (UT, "append_sensitivities_to_tri"))
P("append_sensitivities_to_tri removes the combined file name from the caller's list and mis-parses names containing dxd",
  "The caller's file list loses its first occurrence of combined_sens_fn (mutation visible to the caller); parameter names are recovered correctly iff they contain no 'dxd'.",
  "all lists and parameter names", "strings",
  (UT, "append_sensitivities_to_tri"))
P("Generator keyword overrides",
  "Instantiating a Generator subclass with keyword arguments sets exactly those attributes to the given values (last write wins over defaults) and leaves all others at their defaults.",
  "all attribute dictionaries", "all dictionaries",
  (GN, "Generator.__init__"))
P("Wing ignores a user supplied t_B2",
  "When t_B2 is given, the wing uses t_B1's parameter for it; so the second panel of the planform degenerates to t_B1..t_B1 and the value supplied has no influence on any patch.",
  "all wings and t_B2", "all values",
  (WI, "Wing.__init__"))
P("Wing and Fin top/bottom panels meet the leading edge patches",
  "For wings and fins with purely vertical thickness functions the seam of the top (bottom) panel and the leading-edge patch agree along the whole leading edge up to the ellipse end gap, which is bounded by thickness*6.2e-17.",
  "all planforms, thickness functions and parameters", "continuum",
  (WI, "Wing._create_leading_edge"), (WI, "Wing._create_planform_patches"), (FI, "Fin.generate_patches"))
P("FLAT leading edges overlap",
  "With LE_type FLAT the third leading-edge patch covers t from t_B1 to 1 instead of t_B2 to 1, so it duplicates the second patch's part of the surface.",
  "all wings", "all parameters",
  (WI, "Wing._create_leading_edge"))
P("OgiveNose arcs are well formed and connected",
  "For r_n < h <= r_o and consistent radii the nose and ogive arcs pass the radius check exactly, are tangent-continuous at their junction and the revolve line starts and ends on the axis.",
  "all admissible h, r_n, r_o, L_o", "algebraic identities",
  (CM, "OgiveNose.__init__"))
P("Shallow copies of a component share patches; deep copies do not",
  "Rotating or translating a copy.copy of a component also moves the original (shared dictionary); a deepcopy is independent.",
  "all components and histories", "aliasing",
  (CO, "Component.__copy__"), (CO, "Component.__deepcopy__"))
P("Structured grids cannot be built from library surfaces",
  "StructuredGrid passes arrays to the surface; since Vector3 rejects a non-scalar x, constructing a grid of any library surface raises, as does any niv or njv below 2.",
  "all surfaces and sizes", "all surfaces",
  (SU, "StructuredGrid.generate"), (V, "Vector3.__init__"))

with open(OUT, "w") as f:
    for r in ROWS:
        f.write(json.dumps(r) + "\n")
print(len(ROWS))
