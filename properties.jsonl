{"id": "C01", "title": "Vector3 arithmetic obeys the vector-space and cross-product laws", "statement": "Addition, subtraction, negation, scaling, dot and cross product of Vector3 satisfy the laws of 3-D Euclidean space: + is commutative/associative with inverse, scaling distributes, cross_product(a,b) is orthogonal to a and b, antisymmetric, and |a x b|^2 = |a|^2|b|^2 - (a.b)^2.", "quantifier": "all real vectors a, b, c and scalars", "why_tests_cant": "identities over a continuum of inputs", "anchors": [{"file": "src/hypervehicle/geometry/vector.py", "symbol": "Vector3.__add__"}, {"file": "src/hypervehicle/geometry/vector.py", "symbol": "Vector3.__mul__"}, {"file": "src/hypervehicle/geometry/vector.py", "symbol": "cross_product"}, {"file": "src/hypervehicle/geometry/vector.py", "symbol": "Vector3.dot"}]}
{"id": "C02", "title": "norm and unit", "statement": "norm(v) is zero exactly for the zero vector, satisfies |k v| = |k||v| and the triangle inequality; for every non-zero v, v.unit has norm 1 and is parallel to v, and normalize() leaves v equal to v.unit.", "quantifier": "all real vectors", "why_tests_cant": "inequality over a continuum", "anchors": [{"file": "src/hypervehicle/geometry/vector.py", "symbol": "Vector3.norm"}, {"file": "src/hypervehicle/geometry/vector.py", "symbol": "Vector3.unit"}, {"file": "src/hypervehicle/geometry/vector.py", "symbol": "Vector3.normalize"}, {"file": "src/hypervehicle/geometry/vector.py", "symbol": "Vector3.__abs__"}]}
{"id": "C03", "title": "Local/global frame transformations invert each other exactly when (z-y)*t2.y = 0", "statement": "For an orthonormal right-handed frame (n,t1,t2) at c a user expects transform_to_global_frame to undo transform_to_local_frame. With the code as written the round trip returns the original vector if and only if (z_local - y_local)*t2.y = 0; otherwise the y-coordinate is off by exactly (y_local - z_local)*t2.y.", "quantifier": "all vectors, all orthonormal frames, all origins", "why_tests_cant": "the defect only shows for frames with t2.y != 0; tests use axis-aligned frames", "anchors": [{"file": "src/hypervehicle/geometry/vector.py", "symbol": "Vector3.transform_to_global_frame"}, {"file": "src/hypervehicle/geometry/vector.py", "symbol": "Vector3.transform_to_local_frame"}]}
{"id": "C04", "title": "transform_to_local_frame mutates its receiver if and only if no origin is given", "statement": "Calling v.transform_to_local_frame(n,t1,t2) changes v in place; v.transform_to_local_frame(n,t1,t2,c) leaves v unchanged and returns a fresh vector. Every other object in the heap keeps its coordinates in both cases.", "quantifier": "all heaps, all vectors, all frames", "why_tests_cant": "aliasing statement about every other live object", "anchors": [{"file": "src/hypervehicle/geometry/vector.py", "symbol": "Vector3.transform_to_local_frame"}]}
{"id": "C05", "title": "Line runs from p0 to p1 at constant speed", "statement": "Line(p0,p1)(0) = p0, (1) = p1, every point lies at distance |t|*length from p0, length = |p1-p0|, and (Line + offset)(t) = Line(t) + offset. In IEEE binary64 the end points are exact for all finite end points.", "quantifier": "all end points, all parameters", "why_tests_cant": "end points must be exact for every double, otherwise neighbouring patches crack", "anchors": [{"file": "src/hypervehicle/geometry/path.py", "symbol": "Line.__call__"}, {"file": "src/hypervehicle/geometry/path.py", "symbol": "Line.length"}, {"file": "src/hypervehicle/geometry/path.py", "symbol": "Line.__add__"}]}
{"id": "C06", "title": "Bezier evaluation equals the Bernstein form", "statement": "For any non-empty list of control points Bezier(B)(t) equals sum_i C(n,i)(1-t)^(n-i) t^i B_i; in particular it starts at B[0] and ends at B[-1]; an empty list makes evaluation raise IndexError.", "quantifier": "all control-point lists of any length, all t", "why_tests_cant": "unbounded control point count", "anchors": [{"file": "src/hypervehicle/geometry/path.py", "symbol": "Bezier.__call__"}]}
{"id": "C07", "title": "Bezier stays inside the hull of its control points", "statement": "For t in [0,1] every linear functional of Bezier(B)(t) lies between its minimum and maximum over the control points (hence each coordinate does), and evaluation commutes with affine maps of the control points.", "quantifier": "all control polygons, all half-spaces, all t in [0,1]", "why_tests_cant": "quantifies over all half-spaces and all lengths", "anchors": [{"file": "src/hypervehicle/geometry/path.py", "symbol": "Bezier.__call__"}]}
{"id": "C08", "title": "Polyline breakpoints partition [0,1]", "statement": "When all segment lengths are positive, the breakpoints of Polyline(segments) start at 0, end at 1, are strictly increasing, and are spaced proportionally to the segment lengths; Polyline.length is the sum of the segment lengths.", "quantifier": "all segment lists with positive lengths", "why_tests_cant": "unbounded number of segments", "anchors": [{"file": "src/hypervehicle/geometry/path.py", "symbol": "Polyline.reset_breakpoints"}, {"file": "src/hypervehicle/geometry/path.py", "symbol": "Polyline.length"}]}
{"id": "C09", "title": "Polyline evaluates exactly one segment", "statement": "For segments of positive length, Polyline(t) equals segments[k](local t) for exactly the segment k whose parameter interval contains t (the earlier one at a breakpoint; first/last segment extrapolate), so at breakpoint k it returns the end of segment k, it starts at segments[0](0) and ends at segments[-1](1).", "quantifier": "all segment lists, all t", "why_tests_cant": "the additive 0/1 masking must select one and only one segment for every t", "anchors": [{"file": "src/hypervehicle/geometry/path.py", "symbol": "Polyline.__call__"}]}
{"id": "C10", "title": "Polyline(closed=True) does not close an open chain", "statement": "closed=True appends Line(start, end) rather than Line(end, start); so for an open chain (gap > tolerance) the resulting path still ends at the original end point, i.e. path(1) = last end != path(0), and jumps back to the start at the last breakpoint.", "quantifier": "all open chains of segments", "why_tests_cant": "tests only evaluate an already closed chain", "anchors": [{"file": "src/hypervehicle/geometry/path.py", "symbol": "Polyline.__init__"}]}
{"id": "C11", "title": "Evaluating a Polyline can overwrite its own first segment", "statement": "Evaluating a multi-segment Polyline multiplies the vector returned by segments[0] by 0 in place. That is harmless exactly when the first segment returns a fresh vector; when it is a single-control-point Bezier the stored control point itself is overwritten with zeros, so that segment afterwards evaluates to the zero vector (although evaluating the polyline again returns the same value as the first time).", "quantifier": "all heaps and all evaluation histories", "why_tests_cant": "needs aliasing between returned and stored vectors", "anchors": [{"file": "src/hypervehicle/geometry/path.py", "symbol": "Polyline.__call__"}, {"file": "src/hypervehicle/geometry/path.py", "symbol": "Bezier.__call__"}, {"file": "src/hypervehicle/geometry/vector.py", "symbol": "Vector3.__imul__"}]}
{"id": "C12", "title": "Spline interpolates its points in order", "statement": "Every Spline through m+1 points consists of m cubic segments; segment i starts at points[i] and ends at points[i+1] regardless of whether the internal iteration converged. With closed=True and distinct end points the first point is appended at the end.", "quantifier": "all point lists, all iteration outcomes", "why_tests_cant": "must hold for every (possibly unconverged) iteration result", "anchors": [{"file": "src/hypervehicle/geometry/path.py", "symbol": "Spline.__init__"}]}
{"id": "C13", "title": "Arc has constant radius and hits both ends when its plane normal has no y component", "statement": "If |a-c| = |b-c| and (a-c)x(b-c) is non-zero with zero y-component then Arc(t) is at distance |a-c| from c for all t, starts at a, ends at b, and its length is radius times the angle between a-c and b-c.", "quantifier": "all centres, radii, end points with normal.y = 0, all t", "why_tests_cant": "trigonometric identity over a continuum", "anchors": [{"file": "src/hypervehicle/geometry/path.py", "symbol": "Arc.evaluate_position_and_length"}]}
{"id": "C14", "title": "Arc misses its end point by exactly (r sin theta) n.y in y when the plane is tilted", "statement": "In general Arc(t) equals the true circular arc point displaced in y by sin(t*theta)*r*n.y where n is the unit normal of the plane; hence Arc(1) = b iff n.y * sin(theta) = 0.", "quantifier": "all arcs", "why_tests_cant": "needs the exact error term for every plane", "anchors": [{"file": "src/hypervehicle/geometry/path.py", "symbol": "Arc.evaluate_position_and_length"}, {"file": "src/hypervehicle/geometry/vector.py", "symbol": "Vector3.transform_to_global_frame"}]}
{"id": "C15", "title": "Arc rejects unequal radii and collinear points", "statement": "Arc evaluation raises iff | |a-c| - |b-c| | > 1e-5 or (a-c)x(b-c) = 0 (180 degree or degenerate arcs); otherwise it returns a point.", "quantifier": "all triples of points", "why_tests_cant": "error behaviour on all inputs", "anchors": [{"file": "src/hypervehicle/geometry/path.py", "symbol": "Arc.evaluate_position_and_length"}]}
{"id": "C16", "title": "Arc-length reparameterisation preserves ends and order", "statement": "ArcLengthParameterizedPath(p,n) maps t=0 to parameter 0 and t=1 to parameter 1, is monotone, maps [0,1] into [0,1] and therefore starts and ends where p does, whenever the sampled length is positive and the first sample interval is non-degenerate; n<1 is rejected.", "quantifier": "all paths, all n, all t", "why_tests_cant": "monotonicity of a table inverse for every path", "anchors": [{"file": "src/hypervehicle/geometry/path.py", "symbol": "ArcLengthParameterizedPath.underlying_t"}, {"file": "src/hypervehicle/geometry/path.py", "symbol": "ArcLengthParameterizedPath.set_arc_lengths"}]}
{"id": "C17", "title": "Arc-length reparameterisation equalises sampled arc length", "statement": "At every sample k, evaluating the inverse table at arc_lengths[k]/L gives a parameter with sampled arc length arc_lengths[k]: the table is a right inverse of the piecewise-linear arc length function.", "quantifier": "all paths, all sample counts", "why_tests_cant": "continuum of targets", "anchors": [{"file": "src/hypervehicle/geometry/path.py", "symbol": "ArcLengthParameterizedPath.underlying_t"}]}
{"id": "C18", "title": "Sampled path length is a lower bound that dominates the chord", "statement": "Path.length(n) is non-negative, at least |p(1)-p(0)|, and for straight lines traversed monotonically equals the true length; n=0 raises ZeroDivisionError.", "quantifier": "all paths, all n", "why_tests_cant": "triangle inequality over n samples", "anchors": [{"file": "src/hypervehicle/geometry/path.py", "symbol": "Path.length"}]}
{"id": "C19", "title": "Roberts clustering is a monotone bijection of [0,1] fixing the ends", "statement": "For beta > 1 and any end flags, clustered_roberts maps 0 to 0, 1 to 1, is strictly increasing and stays in [0,1]; end1 and end2 variants are mirror images; with no flags or beta<1 it is the identity; beta = 1 with a flag set divides by zero.", "quantifier": "all eta in [0,1], all beta, all flags", "why_tests_cant": "monotonicity over reals", "anchors": [{"file": "src/hypervehicle/geometry/path.py", "symbol": "roberts"}, {"file": "src/hypervehicle/geometry/path.py", "symbol": "clustered_roberts"}, {"file": "src/hypervehicle/geometry/path.py", "symbol": "RobertsFunction.__call__"}]}
{"id": "C20", "title": "distribute_points yields n+1 ordered points spanning [t1,t2]", "statement": "distribute_points(t1,t2,n,..) has n+1 entries, the first is t1 and the last t2, and the sequence is strictly monotone from t1 to t2 for n >= 1 and t1 != t2.", "quantifier": "all n, t1, t2, beta != 1 and flags", "why_tests_cant": "unbounded n", "anchors": [{"file": "src/hypervehicle/geometry/path.py", "symbol": "distribute_points"}]}
{"id": "C21", "title": "SubRangedPath / ReversedPath reparameterise but do not change length()", "statement": "SubRangedPath(p,a,b) starts at p(a), ends at p(b), nested sub-ranges compose, reversing twice is the identity; but length() always reports the full underlying length, so it is wrong for every proper sub-range of a line of positive length.", "quantifier": "all paths, all ranges", "why_tests_cant": "compositional law over all paths", "anchors": [{"file": "src/hypervehicle/geometry/geometry.py", "symbol": "SubRangedPath.__call__"}, {"file": "src/hypervehicle/geometry/geometry.py", "symbol": "SubRangedPath.length"}, {"file": "src/hypervehicle/geometry/geometry.py", "symbol": "ReversedPath"}]}
{"id": "C22", "title": "ElipsePath lies on its ellipse", "statement": "Every point of ElipsePath satisfies (y/a)^2 + (z/b)^2 = 1 and x = centre.x relative to the centre, for non-zero width and thickness and both sides; other side names raise.", "quantifier": "all centres, widths, thicknesses, parameters", "why_tests_cant": "algebraic identity over reals", "anchors": [{"file": "src/hypervehicle/geometry/geometry.py", "symbol": "ElipsePath.__call__"}]}
{"id": "C23", "title": "CoonsPatch interpolates its four edges", "statement": "For edges that meet exactly at the corners, CoonsPatch(r,0)=south(r), (r,1)=north(r), (0,s)=west(s), (1,s)=east(s), each plus the offset. If the corners match only approximately the deviation on an edge is the linear blend of the two corner mismatches.", "quantifier": "all edges, all r,s", "why_tests_cant": "for every edge path", "anchors": [{"file": "src/hypervehicle/geometry/surface.py", "symbol": "CoonsPatch.__call__"}, {"file": "src/hypervehicle/geometry/surface.py", "symbol": "CoonsPatch.__init__"}]}
{"id": "C24", "title": "CoonsPatch construction accepts exactly closed quadrilaterals", "statement": "With four edges construction succeeds iff each pair of edge ends agrees within 1e-5 + 1e-2*|alt| per coordinate; with four corners it always succeeds and gives the bilinear patch; otherwise it raises.", "quantifier": "all edge/corner arguments", "why_tests_cant": "input validation over all inputs", "anchors": [{"file": "src/hypervehicle/geometry/surface.py", "symbol": "CoonsPatch.__init__"}, {"file": "src/hypervehicle/geometry/vector.py", "symbol": "approximately_equal_vectors"}]}
{"id": "C25", "title": "CoonsPatch + v displaces a copy", "statement": "(patch + v)(r,s) = patch(r,s) + v, (patch - v) undoes it, and the original patch (and the shared default offset) is unchanged.", "quantifier": "all patches, offsets, parameters", "why_tests_cant": "non-interference", "anchors": [{"file": "src/hypervehicle/geometry/surface.py", "symbol": "CoonsPatch.__add__"}, {"file": "src/hypervehicle/geometry/surface.py", "symbol": "CoonsPatch.__sub__"}]}
{"id": "C26", "title": "RotatedPatch is a rigid motion", "statement": "RotatedPatch about x, y or z through a point preserves distances between surface points and orientation (determinant +1), fixes the axis line, angles add under composition, and rotation by -angle undoes it; any other axis name makes evaluation raise UnboundLocalError.", "quantifier": "all surfaces, angles, points, parameters", "why_tests_cant": "trigonometric identities over a continuum", "anchors": [{"file": "src/hypervehicle/geometry/geometry.py", "symbol": "RotatedPatch.__call__"}]}
{"id": "C27", "title": "MirroredPatch is an orientation-reversing involution", "statement": "MirroredPatch about x, y or z preserves distances, reverses orientation (determinant -1), fixes the mirror plane pointwise and is an involution; an unknown axis is silently the identity.", "quantifier": "all surfaces, parameters, axis strings", "why_tests_cant": "for every axis string", "anchors": [{"file": "src/hypervehicle/geometry/geometry.py", "symbol": "MirroredPatch.__call__"}]}
{"id": "C28", "title": "CurvedPatch moves points by rotating thickness about the curvature slope", "statement": "CurvedPatch in x (or y) maps (x,y,0) to (x,y,f(x,y)); a point at height z stays at distance |z| from the mapped base point, along the normal (-f',1)/sqrt(1+f'^2); without both functions it raises; any other direction returns None.", "quantifier": "all surfaces, curvature functions and parameters", "why_tests_cant": "continuum, user functions", "anchors": [{"file": "src/hypervehicle/geometry/geometry.py", "symbol": "CurvedPatch.__call__"}]}
{"id": "C29", "title": "RevolvedPatch and ConePatch have the right radius everywhere", "statement": "Every RevolvedPatch point keeps the x and the distance from the x-axis of the generating line point; ConePatch points at r are at x = lerp(x0,x1) and distance |lerp(r0,r1)| from the axis. Consecutive patches of a RevolvedComponent share their seams and the fourth closes onto the first.", "quantifier": "all lines, angles and parameters", "why_tests_cant": "trigonometry over reals", "anchors": [{"file": "src/hypervehicle/geometry/geometry.py", "symbol": "RevolvedPatch.__call__"}, {"file": "src/hypervehicle/geometry/geometry.py", "symbol": "ConePatch.__call__"}, {"file": "src/hypervehicle/components/revolved.py", "symbol": "RevolvedComponent.generate_patches"}]}
{"id": "C30", "title": "BluntConePatch can never be evaluated", "statement": "Evaluating any BluntConePatch raises AttributeError, whatever its parameters.", "quantifier": "all parameters", "why_tests_cant": "for all arguments", "anchors": [{"file": "src/hypervehicle/geometry/geometry.py", "symbol": "BluntConePatch.__call__"}]}
{"id": "C31", "title": "SweptPatchfromEdges interpolates its sections", "statement": "For n >= 2 edges and r in [0,1], the patch passes through edge k at r=k/(n-1), is the linear blend of the two neighbouring edges in between, and is continuous across sections; r>1 raises IndexError and r<0 extrapolates from the wrong (last and first) edges.", "quantifier": "all edge lists, all r,s", "why_tests_cant": "unbounded number of edges", "anchors": [{"file": "src/hypervehicle/geometry/geometry.py", "symbol": "SweptPatchfromEdges.__call__"}]}
{"id": "C32", "title": "SweptPatch interpolates ascending cross sections", "statement": "With strictly ascending section origins SweptPatch(r,s) has sweep coordinate min+r*(max-min) and blends the perimeters of the two bounding sections; sections all at one location are rejected; sections not in ascending order can raise IndexError or extrapolate.", "quantifier": "all lists of cross sections", "why_tests_cant": "unbounded number of sections", "anchors": [{"file": "src/hypervehicle/geometry/geometry.py", "symbol": "SweptPatch.__call__"}, {"file": "src/hypervehicle/geometry/geometry.py", "symbol": "SweptPatch.__init__"}]}
{"id": "C33", "title": "SurfacePerimeter walks the boundary once", "statement": "For t in [0,1] SurfacePerimeter evaluates the surface only at boundary parameters, in the order south, east, north, west, and closes: t=1 gives the same point as t=0.", "quantifier": "all surfaces, all t in [0,1]", "why_tests_cant": "continuum of t", "anchors": [{"file": "src/hypervehicle/geometry/geometry.py", "symbol": "SurfacePerimeter.__call__"}]}
{"id": "C34", "title": "SpherePatch points lie on the sphere and faces join up", "statement": "For r,s in [0,1] every SpherePatch point is at distance exactly R from the centre, and the six faces of Sphere agree along all twelve shared edges.", "quantifier": "all radii, centres, faces, parameters", "why_tests_cant": "square-root identity over a continuum", "anchors": [{"file": "src/hypervehicle/geometry/geometry.py", "symbol": "SpherePatch.__call__"}, {"file": "src/hypervehicle/components/polygon.py", "symbol": "Sphere.generate_patches"}]}
{"id": "C35", "title": "CubePatch faces lie on the cube and join up", "statement": "For r,s in [0,1] CubePatch points have max-norm distance exactly |a| from the centre and the six faces agree along shared edges; unknown faces raise ValueError.", "quantifier": "all sizes, centres, faces, parameters", "why_tests_cant": "continuum", "anchors": [{"file": "src/hypervehicle/geometry/geometry.py", "symbol": "CubePatch.__call__"}, {"file": "src/hypervehicle/components/polygon.py", "symbol": "Cube.generate_patches"}]}
{"id": "C36", "title": "Cube and Sphere meshes are not consistently oriented", "statement": "Opposite faces are parameterised identically, so the mesh of a Cube is not a consistently oriented closed surface at any resolution: its net area vector is 16 a^2 (1,-1,1) and its signed volume is (8/3) a^2 (cx - cy + cz) rather than 8 a^3, so 0 for a cube at the origin. The mesh of a Sphere is not watertight either, and a sphere at the origin has signed volume 0.", "quantifier": "all sizes, centres, resolutions n >= 1", "why_tests_cant": "every resolution", "anchors": [{"file": "src/hypervehicle/components/polygon.py", "symbol": "Cube.generate_patches"}, {"file": "src/hypervehicle/geometry/geometry.py", "symbol": "CubePatch.__call__"}, {"file": "src/hypervehicle/utilities.py", "symbol": "surfce_to_stl"}]}
{"id": "C37", "title": "surfce_to_stl emits the four triangles of every cell, in order", "statement": "Meshing an ni x nj patch yields exactly 4*ni*nj triangles; triangle 4*(i*nj+j)+k is the k-th triangle of cell (i,j) whose corners are the surface at the grid parameters and whose apex is the mean of the cell corners; mirror_y negates y of every vertex and nothing else. ni=0 or nj=0 raises ZeroDivisionError.", "quantifier": "all surfaces, all ni, nj, in any arithmetic", "why_tests_cant": "every resolution", "anchors": [{"file": "src/hypervehicle/utilities.py", "symbol": "surfce_to_stl"}]}
{"id": "C38", "title": "Patch meshes are crack-free", "statement": "In the mesh of one patch, at any resolution and in any arithmetic (in particular IEEE), each directed edge not on the patch outline is matched by its opposite; what remains is exactly the closed outline south, east, north reversed, west reversed.", "quantifier": "all surfaces and resolutions, any arithmetic", "why_tests_cant": "every resolution, bit-exact", "anchors": [{"file": "src/hypervehicle/utilities.py", "symbol": "surfce_to_stl"}]}
{"id": "C39", "title": "default_vertex_func is a monotone grid from lb to ub", "statement": "default_vertex_func(lb,ub,steps,spacing) has `steps` entries, starts at lb, ends at ub and is strictly monotone, for steps >= 2, spacing > 0, lb < ub; steps=1 raises ZeroDivisionError. In binary64 the last entry may be below ub (e.g. 50 steps), so patches need not end exactly at parameter 1.", "quantifier": "all bounds, steps and positive spacings", "why_tests_cant": "unbounded steps; rounding", "anchors": [{"file": "src/hypervehicle/utilities.py", "symbol": "default_vertex_func"}]}
{"id": "C40", "title": "j-direction clustering samples the wrong number of points", "statement": "With a j_clustering_func the s-grid has ni+1 points spread over [0,1] instead of nj+1: if nj > ni meshing raises IndexError; if nj < ni the mesh covers only s in [0, f(nj/ni)]; it covers the patch iff ni = nj.", "quantifier": "all surfaces, clustering functions and resolutions", "why_tests_cant": "all resolution pairs", "anchors": [{"file": "src/hypervehicle/utilities.py", "symbol": "surfce_to_stl"}]}
{"id": "C41", "title": "Per-edge resolution dictionaries are ignored in the s direction", "statement": "Component.surface with a non-integer (dict) resolution meshes every patch with patch_res_r[k] in both directions, so the s-resolution given for any edge has no effect.", "quantifier": "all components and resolution dictionaries", "why_tests_cant": "for all dicts", "anchors": [{"file": "src/hypervehicle/components/component.py", "symbol": "Component.surface"}, {"file": "src/hypervehicle/components/swept.py", "symbol": "SweptComponent.generate_patches"}]}
{"id": "C42", "title": "A closed SweptComponent is watertight", "statement": "With close_ends=True, any number of cross sections made of four exactly connected edges, and any integer resolution n >= 1, the component mesh is watertight and consistently oriented: each directed edge occurs as often as its reverse.", "quantifier": "all cross-section lists, all resolutions", "why_tests_cant": "unbounded sections and resolution", "anchors": [{"file": "src/hypervehicle/components/swept.py", "symbol": "SweptComponent.generate_patches"}, {"file": "src/hypervehicle/geometry/geometry.py", "symbol": "SweptPatchfromEdges.__call__"}, {"file": "src/hypervehicle/geometry/surface.py", "symbol": "CoonsPatch.__call__"}]}
{"id": "C43", "title": "SweptComponent validation", "statement": "Construction raises unless all sections have the same number of edges, consecutive edges meet within 1e-12 per coordinate, close_ends implies 4 edges, and dict resolutions agree on opposite edges; every accepted component with exactly meeting edges generates its patches without error.", "quantifier": "all section lists and options", "why_tests_cant": "input validation over all inputs", "anchors": [{"file": "src/hypervehicle/components/swept.py", "symbol": "SweptComponent._check_options"}]}
{"id": "C44", "title": "A RevolvedComponent whose line starts and ends on the axis is watertight", "statement": "If the generating line starts and ends on the x-axis, the mesh of the RevolvedComponent is watertight at every resolution; if the radii of its two ends differ, it is not watertight at any resolution.", "quantifier": "all generating lines with ends on the axis, all resolutions", "why_tests_cant": "every resolution and line", "anchors": [{"file": "src/hypervehicle/components/revolved.py", "symbol": "RevolvedComponent.generate_patches"}]}
{"id": "C45", "title": "stl_check decides watertight orientation", "statement": "For meshes without degenerate triangles, stl_check(project_area=False) returns True iff all directed edges are distinct and each has its reverse; matching_lines=False raises UnboundLocalError.", "quantifier": "all meshes", "why_tests_cant": "decision procedure soundness and completeness", "anchors": [{"file": "src/hypervehicle/components/component.py", "symbol": "Component.stl_check"}]}
{"id": "C46", "title": "Watertight meshes have a well-defined volume and zero net area", "statement": "For a watertight mesh the sum of triangle area vectors is zero and the signed volume is translation invariant; rotation preserves signed volume, mirroring negates it.", "quantifier": "all watertight meshes and rigid motions", "why_tests_cant": "every mesh", "anchors": [{"file": "src/hypervehicle/utilities.py", "symbol": "assess_inertial_properties"}, {"file": "src/hypervehicle/components/component.py", "symbol": "Component.stl_check"}, {"file": "src/hypervehicle/geometry/geometry.py", "symbol": "RotatedPatch"}, {"file": "src/hypervehicle/geometry/geometry.py", "symbol": "MirroredPatch"}]}
{"id": "C47", "title": "append_reflection makes the signed volume vanish", "statement": "Reflecting a component with append_reflection=True adds mirrored patches with reversed orientation: the signed volume of the resulting mesh is exactly 0 for every component, and with append_reflection=False it is the negative of the original.", "quantifier": "all components, axes and resolutions", "why_tests_cant": "every component", "anchors": [{"file": "src/hypervehicle/components/component.py", "symbol": "Component.reflect"}, {"file": "src/hypervehicle/geometry/geometry.py", "symbol": "MirroredPatch"}]}
{"id": "C48", "title": "stl_repair only merges nearby vertices", "statement": "stl_repair never changes the number of triangles, moves every vertex coordinate by less than small_distance, and leaves isolated vertices alone; but vertices closer than small_distance are not always merged (a chain 0, 0.6d, 1.2d splits), contrary to its documentation.", "quantifier": "all meshes and distances", "why_tests_cant": "every mesh", "anchors": [{"file": "src/hypervehicle/components/component.py", "symbol": "Component.stl_repair"}]}
{"id": "C49", "title": "Vehicle.add_component bookkeeping", "statement": "After any history of add_component calls: components lists the accepted components in order, the per-type counts are the numbers of components of that type, the enumerated dict has one entry per component (type_k is the k-th of its type), and a component of a disallowed type is rejected leaving the vehicle unchanged.", "quantifier": "all histories of calls", "why_tests_cant": "unbounded histories", "anchors": [{"file": "src/hypervehicle/vehicle.py", "symbol": "Vehicle.add_component"}]}
{"id": "C50", "title": "Named components: later additions silently replace earlier ones with the same name", "statement": "The name table maps each name to the most recently added component with that name. All components are reachable by name iff the effective names are pairwise distinct; effective names of unnamed components never clash with each other.", "quantifier": "all histories of calls", "why_tests_cant": "unbounded histories, string formatting", "anchors": [{"file": "src/hypervehicle/vehicle.py", "symbol": "Vehicle.add_component"}]}
{"id": "C51", "title": "Vehicle.generate applies the documented pipeline to every component", "statement": "After generate() each patch of a component is: modifier offset, then curvatures in order, then rotation by the vehicle angle about y, then reflection, then component transformations in order, then vehicle transformations in order, applied to the generated patch.", "quantifier": "all vehicles, options and patches", "why_tests_cant": "all option combinations", "anchors": [{"file": "src/hypervehicle/vehicle.py", "symbol": "Vehicle.generate"}, {"file": "src/hypervehicle/components/component.py", "symbol": "Component.reflect"}, {"file": "src/hypervehicle/components/component.py", "symbol": "Component.curve"}]}
{"id": "C52", "title": "generate() is idempotent only without appended reflections", "statement": "Calling generate() twice yields the same patches when generate_patches rebuilds the dictionary or no reflection is configured; for Wing/Revolved/Swept components with a reflection the second call re-processes stale mirrored patches and adds keys ending in _mirrored_mirrored.", "quantifier": "all components and options", "why_tests_cant": "histories of calls", "anchors": [{"file": "src/hypervehicle/vehicle.py", "symbol": "Vehicle.generate"}, {"file": "src/hypervehicle/components/component.py", "symbol": "Component.reflect"}]}
{"id": "C53", "title": "Cached meshes are refreshed by Vehicle.transform but not by Component.rotate/translate", "statement": "After Vehicle.transform the next mesh is built from the transformed patches; after Component.rotate/translate/reflect, or a second generate without vehicle transformations, mesh still returns the triangles computed before.", "quantifier": "all histories of mesh accesses and transformations", "why_tests_cant": "histories", "anchors": [{"file": "src/hypervehicle/components/component.py", "symbol": "Component.mesh"}, {"file": "src/hypervehicle/vehicle.py", "symbol": "Vehicle.transform"}]}
{"id": "C54", "title": "Transforming before generating is refused", "statement": "Vehicle.transform raises and changes nothing unless generate() has completed; a tuple is treated as a one-element list.", "quantifier": "all vehicles and transformations", "why_tests_cant": "state machine", "anchors": [{"file": "src/hypervehicle/vehicle.py", "symbol": "Vehicle.transform"}, {"file": "src/hypervehicle/vehicle.py", "symbol": "Vehicle.add_vehicle_transformations"}]}
{"id": "C55", "title": "to_stl file names", "statement": "to_stl writes exactly one file per non-ghost component, named by the documented scheme; unnamed components of a vehicle always get distinct files; two components sharing a name overwrite one another; ghosts are never written but consume an index.", "quantifier": "all vehicles and prefixes", "why_tests_cant": "all histories and strings", "anchors": [{"file": "src/hypervehicle/vehicle.py", "symbol": "Vehicle.to_stl"}, {"file": "src/hypervehicle/components/component.py", "symbol": "Component.to_stl"}]}
{"id": "C56", "title": "merge=True reads only files that were written when every component is named and no prefix is given", "statement": "to_stl(merge=True) asks for name.stl of every non-ghost named component; these are exactly the files just written if all components carry a name and no prefix is used, and otherwise some requested file was never written.", "quantifier": "all vehicles and prefixes", "why_tests_cant": "all histories", "anchors": [{"file": "src/hypervehicle/vehicle.py", "symbol": "Vehicle.to_stl"}, {"file": "src/hypervehicle/utilities.py", "symbol": "merge_stls"}]}
{"id": "C57", "title": "Composite components merge children without key collisions", "statement": "The patches of a CompositeComponent are exactly the patches of its children, one entry per (child, key) under key_index, with no collisions for any child keys and any number of children.", "quantifier": "all lists of children and keys", "why_tests_cant": "unbounded children, arbitrary strings", "anchors": [{"file": "src/hypervehicle/components/composite.py", "symbol": "CompositeComponent.generate_patches"}]}
{"id": "C58", "title": "Composite components ignore options given for their children", "statement": "reflection, curvature and transformation options passed to CompositeComponent.add_component have no effect on the composite's patches after generation.", "quantifier": "all children and options", "why_tests_cant": "all options", "anchors": [{"file": "src/hypervehicle/components/composite.py", "symbol": "CompositeComponent.add_component"}, {"file": "src/hypervehicle/components/composite.py", "symbol": "CompositeComponent.generate_patches"}]}
{"id": "C59", "title": "Inertial totals", "statement": "analyse: total mass, volume and area are the sums over the name table; the composite c.o.g. is the mass-weighted mean (hence inside the hull of component cogs for positive masses and translation equivariant), a vehicle without components raises ZeroDivisionError, and the results do not depend on insertion order; a missing density raises KeyError.", "quantifier": "all vehicles and densities", "why_tests_cant": "unbounded component sets", "anchors": [{"file": "src/hypervehicle/utilities.py", "symbol": "assess_inertial_properties"}]}
{"id": "C60", "title": "Composite inertia violates the parallel-axis theorem", "statement": "The composite inertia adds m*r_j^2 to every entry of column j of each component tensor; it equals the parallel-axis result iff all component offsets vanish (for a single component it is right, for two distinct cogs it is wrong and generally asymmetric).", "quantifier": "all component masses, cogs, inertias", "why_tests_cant": "algebraic statement", "anchors": [{"file": "src/hypervehicle/utilities.py", "symbol": "assess_inertial_properties"}]}
{"id": "C61", "title": "Sensitivities perturb one parameter at a time and leave the caller's dictionary alone", "statement": "dvdp calls the constructor once nominally and once per parameter, with exactly that (scalar) parameter scaled by 1+p/100 and all others nominal plus overrides; the caller's dictionary is unchanged; the step is x*p/100, zero exactly when the value or the percentage is zero. A keyword that is both a parameter and an override raises TypeError. With a Vector3-valued parameter the caller's own vector is scaled in place, the constructor still receives the nominal object, and the study raises once a component has a non-empty mesh.", "quantifier": "all parameter dictionaries", "why_tests_cant": "aliasing and histories", "anchors": [{"file": "src/hypervehicle/utilities.py", "symbol": "SensitivityStudy.dvdp"}]}
{"id": "C62", "title": "Finite differences are exact for affine dependence", "statement": "If every vertex depends affinely on the parameter then the reported sensitivity equals the exact derivative for every non-zero perturbation; rows list the nominal vertices in order with duplicates removed.", "quantifier": "all meshes, parameters, perturbations", "why_tests_cant": "continuum", "anchors": [{"file": "src/hypervehicle/utilities.py", "symbol": "SensitivityStudy._compare_meshes"}]}
{"id": "C63", "title": "Combining parameters misaligns when deduplication differs", "statement": "_combine joins the per-parameter tables on the original row index: rows that were removed for the first parameter but kept for another appear without coordinates (NaN); if all parameters keep the same rows the result is aligned row by row.", "quantifier": "all families of per-parameter tables", "why_tests_cant": "all tables", "anchors": [{"file": "src/hypervehicle/utilities.py", "symbol": "SensitivityStudy._combine"}, {"file": "src/hypervehicle/utilities.py", "symbol": "SensitivityStudy._compare_meshes"}]}
{"id": "C64", "title": "append_sensitivities_to_tri matches points in order", "statement": "Each mesh point receives the data of the first sensitivity row within tolerance in all three coordinates (values below the rounding tolerance zeroed) or zeros if there is none; the output has one row per point in order; match_fraction is the fraction matched and lies in [0,1]; when no point is left after parsing ZeroDivisionError is raised, when the widest line does not hold three numbers ValueError, when there are points but no data file KeyError.", "quantifier": "all point lists and tables", "why_tests_cant": "unbounded data", "anchors": [{"file": "src/hypervehicle/utilities.py", "symbol": "append_sensitivities_to_tri"}]}
{"id": "C65", "title": "append_sensitivities_to_tri removes the combined file name from the caller's list and mis-parses names containing dxd", "statement": "The caller's file list loses its first occurrence of combined_sens_fn as soon as the points have been read (mutation visible to the caller, even when the call then fails); a parameter's name is recovered from its column name exactly when it does not contain 'dxd'; parameters whose recovered names coincide get identical elements, so the data of all but the first is lost.", "quantifier": "all lists and parameter names", "why_tests_cant": "strings", "anchors": [{"file": "src/hypervehicle/utilities.py", "symbol": "append_sensitivities_to_tri"}]}
{"id": "C66", "title": "Generator keyword overrides", "statement": "Instantiating a Generator subclass with keyword arguments sets exactly those attributes to the given values, leaving all others at their defaults: defaults computed from other defaults in __init__ are not recomputed, an assignment made after super().__init__ overrides the keyword, the keyword 'self' raises TypeError and 'create_instance' hides the method. A keyword no one reads is accepted silently, and a sensitivity study over it reports zero sensitivities.", "quantifier": "all attribute dictionaries", "why_tests_cant": "all dictionaries", "anchors": [{"file": "src/hypervehicle/generator.py", "symbol": "Generator.__init__"}]}
{"id": "C67", "title": "Wing ignores a user supplied t_B2", "statement": "When t_B2 is given, the wing uses t_B1's parameter for it; so the second panel of the planform degenerates to t_B1..t_B1 and the value supplied has no influence on any patch.", "quantifier": "all wings and t_B2", "why_tests_cant": "all values", "anchors": [{"file": "src/hypervehicle/components/wing.py", "symbol": "Wing.__init__"}]}
{"id": "C68", "title": "Wing and Fin top/bottom panels meet the leading edge patches", "statement": "For wings and fins with purely vertical thickness functions the seams of the top (bottom) panels and the leading-edge patches agree along the whole leading edge up to the ellipse end gap, which is bounded by 6.2e-17 of the half thickness; for fins there is in addition at most the length of the leading edge times the error of the corner parameter (root finder tolerance plus rounding to 6 digits), provided p1, p2 and p2, p3 differ in x. If p1 and p2 have the same x the corner parameter stalls at p1 and the seam is missed by the length of that edge.", "quantifier": "all planforms, thickness functions and parameters", "why_tests_cant": "continuum", "anchors": [{"file": "src/hypervehicle/components/wing.py", "symbol": "Wing._create_leading_edge"}, {"file": "src/hypervehicle/components/wing.py", "symbol": "Wing._create_planform_patches"}, {"file": "src/hypervehicle/components/fin.py", "symbol": "Fin.generate_patches"}]}
{"id": "C69", "title": "FLAT leading edges overlap", "statement": "With LE_type FLAT the third leading-edge patch covers t from t_B1 to 1 instead of t_B2 to 1, so it duplicates the second patch's part of the surface.", "quantifier": "all wings", "why_tests_cant": "all parameters", "anchors": [{"file": "src/hypervehicle/components/wing.py", "symbol": "Wing._create_leading_edge"}]}
{"id": "C70", "title": "OgiveNose arcs are well formed and connected", "statement": "For 0 < r_n < h < r_o and L_o > 0 the nose and ogive arcs have exactly the radii r_n and r_o at every parameter, the four pieces of the revolve line are connected, tangent-continuous where the nose meets the ogive and the ogive meets the fairing, run from the axis to the axis and never go below it. At both ends of the range (h = r_o, h = r_n) an arc degenerates and the constructor raises.", "quantifier": "all admissible h, r_n, r_o, L_o", "why_tests_cant": "algebraic identities", "anchors": [{"file": "src/hypervehicle/components/common.py", "symbol": "OgiveNose.__init__"}]}
{"id": "C71", "title": "Shallow copies of a component share patches; deep copies do not", "statement": "Rotating or translating a copy.copy of a component also moves the original (shared dictionary); a deepcopy is independent.", "quantifier": "all components and histories", "why_tests_cant": "aliasing", "anchors": [{"file": "src/hypervehicle/components/component.py", "symbol": "Component.__copy__"}, {"file": "src/hypervehicle/components/component.py", "symbol": "Component.__deepcopy__"}]}
{"id": "C72", "title": "Structured grids cannot be built from library surfaces", "statement": "StructuredGrid passes arrays to the surface; since Vector3 rejects a non-scalar x, constructing a grid of any CoonsPatch (whatever its edges) or ConePatch raises, as do lines and Bezier curves called with arrays, any niv or njv below 2, any object that is no surface, and every call of subgrid. A surface that does accept arrays is called with the four edge distributions blended linearly across the unit square.", "quantifier": "all surfaces and sizes", "why_tests_cant": "all surfaces", "anchors": [{"file": "src/hypervehicle/geometry/surface.py", "symbol": "StructuredGrid.generate"}, {"file": "src/hypervehicle/geometry/vector.py", "symbol": "Vector3.__init__"}]}
{"id": "C73", "title": "stl_repair keeps watertight meshes watertight", "statement": "stl_repair moves equal vertices equally, so the repaired mesh of a watertight mesh is watertight, whatever the merging distance.", "quantifier": "all watertight meshes, all positive distances, all argsort implementations that sort", "why_tests_cant": "every mesh and tie-breaking order", "anchors": [{"file": "src/hypervehicle/components/component.py", "symbol": "Component.stl_repair"}]}
{"id": "C74", "title": "stl_check is sound but rejects zero-length edges", "statement": "A mesh accepted by stl_check is watertight; but any mesh with an edge of length zero is rejected, in particular the (watertight) mesh of every RevolvedComponent whose line starts on the axis.", "quantifier": "all meshes; all generating lines and resolutions", "why_tests_cant": "every mesh", "anchors": [{"file": "src/hypervehicle/components/component.py", "symbol": "Component.stl_check"}, {"file": "src/hypervehicle/components/revolved.py", "symbol": "RevolvedComponent.generate_patches"}]}
{"id": "C75", "title": "Reflected components with per-edge resolutions cannot be meshed", "statement": "reflect adds patches named *_mirrored but no resolutions for them, so a component with a dict resolution and an appended reflection raises when meshed.", "quantifier": "all components, axes and dict resolutions", "why_tests_cant": "all inputs", "anchors": [{"file": "src/hypervehicle/components/component.py", "symbol": "Component.reflect"}, {"file": "src/hypervehicle/components/component.py", "symbol": "Component.surface"}]}
{"id": "C76", "title": "A SweptComponent with a single cross section cannot be meshed", "statement": "A single cross section passes validation and generates patches, but meshing raises at every resolution.", "quantifier": "all cross sections, edge counts >= 1 and resolutions", "why_tests_cant": "all inputs", "anchors": [{"file": "src/hypervehicle/components/swept.py", "symbol": "SweptComponent._check_options"}, {"file": "src/hypervehicle/geometry/geometry.py", "symbol": "SweptPatchfromEdges.__call__"}]}
{"id": "C77", "title": "A failed mesh is sticky", "statement": "After reading the mesh of a component has raised once because a patch could not be meshed, every later read raises ValueError, however the patches are changed, until the caches are reset by Vehicle.transform.", "quantifier": "all components, all later operations on patches", "why_tests_cant": "histories", "anchors": [{"file": "src/hypervehicle/components/component.py", "symbol": "Component.mesh"}, {"file": "src/hypervehicle/components/component.py", "symbol": "Component.surface"}]}
{"id": "C78", "title": "Ghost components are excluded from get_non_ghost_components but not from the analysis", "statement": "get_non_ghost_components() returns exactly the entries of the name table whose component is not a ghost, in insertion order; analyse() in contrast sums over the whole name table, so ghosts contribute to mass, volume, area, centre of gravity and inertia, and need a density.", "quantifier": "all histories of add_component and all heaps", "why_tests_cant": "quantifies over all histories and ghost assignments", "anchors": [{"file": "src/hypervehicle/vehicle.py", "symbol": "Vehicle.get_non_ghost_components"}, {"file": "src/hypervehicle/utilities.py", "symbol": "assess_inertial_properties"}]}
{"id": "C79", "title": "close_wing seals a wing exactly when the thickness functions are affine along the root", "statement": "A wing with close_wing=True, a rounded leading edge and thickness functions that are affine along the two root segments has 19 patches whose 76 sides are paired by 38 seams, each side meeting exactly one other side, exactly or within the end gap of a quarter ellipse. The four seams along the root hold exactly if and only if the thickness function is affine along the corresponding root segment. With a flat leading edge and no width function, close_wing=True raises TypeError.", "quantifier": "all planforms, leading edge curves, vertical thickness functions, width functions bounded below, flap settings", "why_tests_cant": "watertightness is a statement about every parameter value along 38 edges of every wing; a mesh test samples a few points of one wing, and a curved root thickness leaks by an amount that a tolerance can hide", "anchors": [{"file": "src/hypervehicle/components/wing.py", "symbol": "Wing._close_wing"}, {"file": "src/hypervehicle/components/wing.py", "symbol": "Wing.generate_patches"}]}
{"id": "C80", "title": "A patch holds copies of its edges but shares its offset", "statement": "Building a CoonsPatch from four edges changes no existing vector, and later changes to any vector of the edges do not move the patch; the offset vector passed to it stays shared, so changing it moves the patch rigidly. Line and Bezier objects hold copies of their points, whereas a Polyline keeps its segments: it follows later changes of their points while its breakpoints stay those of construction time.", "quantifier": "all heaps, edges, offsets and later writes", "why_tests_cant": "aliasing over every later mutation", "anchors": [{"file": "src/hypervehicle/geometry/surface.py", "symbol": "CoonsPatch.__init__"}, {"file": "src/hypervehicle/geometry/path.py", "symbol": "Line.__init__"}, {"file": "src/hypervehicle/geometry/path.py", "symbol": "Bezier.__init__"}, {"file": "src/hypervehicle/geometry/path.py", "symbol": "Polyline.__init__"}]}
{"id": "C81", "title": "Appending sensitivities adds one element per parameter and is not idempotent", "statement": "A successful append keeps every element of the mesh file and adds, in order, one element per parameter whose lines are that parameter's three columns of the written table, one line per point; running it again on the result gives the same fraction and table and adds all the elements a second time.", "quantifier": "all mesh files, tables and parameter lists with distinct names free of 'dxd'", "why_tests_cant": "unbounded data, histories", "anchors": [{"file": "src/hypervehicle/utilities.py", "symbol": "append_sensitivities_to_tri"}]}
{"id": "C82", "title": "Sensitivities written to csv and appended to the mesh reach their own vertices", "statement": "If each mesh point lies within tolerance (less the rounding of the csv text) of a nominal vertex, and vertices it could be mistaken for carry the same sensitivities, then appending the component files written by to_csv matches every point (fraction 1) and gives each point exactly the sensitivities of its vertex, up to the rounding.", "quantifier": "all studies, meshes, tolerances and csv roundings", "why_tests_cant": "composition of two stages for all data", "anchors": [{"file": "src/hypervehicle/utilities.py", "symbol": "SensitivityStudy.to_csv"}, {"file": "src/hypervehicle/utilities.py", "symbol": "append_sensitivities_to_tri"}]}
{"id": "C83", "title": "A component file survives to_csv unless it has the name of the combined file", "statement": "After to_csv, the file of each component holds the rows of that component, except that a component whose file name equals the combined file name (a component called all_components by default) has its file overwritten by the rows of all components.", "quantifier": "all component names and tables", "why_tests_cant": "all names", "anchors": [{"file": "src/hypervehicle/utilities.py", "symbol": "SensitivityStudy.to_csv"}]}
{"id": "C84", "title": "In double precision a closed SweptComponent need not be watertight", "statement": "Although C42 holds in exact arithmetic, the mesh of a closed SweptComponent computed in binary64 and stored in binary32 can have directed edges whose reverse is missing: the box with cross sections [-1,2]x[-1,2] at x=0 and x=1 at stl_resolution=3, whose edges meet exactly, is a case.", "quantifier": "all conforming C libraries (pow(x,1)=x)", "why_tests_cant": "a closedness test on a few round-number shapes passes; the theorem shows the guarantee fails whatever the math library", "anchors": [{"file": "src/hypervehicle/components/swept.py", "symbol": "SweptComponent.generate_patches"}, {"file": "src/hypervehicle/utilities.py", "symbol": "surfce_to_stl"}, {"file": "src/hypervehicle/geometry/surface.py", "symbol": "CoonsPatch.__call__"}]}
{"id": "C85", "title": "In double precision a closed SweptComponent with straight edges is closed up to single-precision rounding", "statement": "For every SweptComponent whose cross sections are closed loops of four Lines through finite corner points with coordinates at most M in size, the constructor accepts it, the mesh computed in binary64 and stored in binary32 exists, and every vertex is within M/2^20 of the corresponding vertex of the (watertight) mesh computed in exact arithmetic. Consequently the mesh's directed edges can be paired off with reversed edges whose end points are within M/2^19: the cracks of C84 never exceed single-precision rounding.", "quantifier": "all numbers of cross sections up to 2^20, all resolutions up to 2^51, all finite corner coordinates with 2^-100 <= M <= 2^100, all conforming C libraries (pow(x,1)=x)", "why_tests_cant": "a test samples a handful of shapes; the bound must hold for every rounding of every coordinate at every resolution, including the parameter comparisons inside the sweep, which change branch under rounding", "anchors": [{"file": "src/hypervehicle/components/swept.py", "symbol": "SweptComponent.__init__"}, {"file": "src/hypervehicle/components/swept.py", "symbol": "SweptComponent.generate_patches"}, {"file": "src/hypervehicle/geometry/surface.py", "symbol": "SweptPatchfromEdges.__call__"}, {"file": "src/hypervehicle/geometry/surface.py", "symbol": "CoonsPatch.__call__"}, {"file": "src/hypervehicle/utilities.py", "symbol": "surfce_to_stl"}]}
{"id": "C86", "title": "Splines are smooth at their interior points", "statement": "Where two consecutive segments of a Spline meet, their second derivatives agree exactly and their first derivatives agree within max(tolerance, E/3^50), E being the largest second difference of the interpolation points: the 50-sweep iteration contracts by three per sweep and always gets that far. The second derivative vanishes at both ends. With closed=True this end condition is kept, so a closed spline is in general not smooth where it closes: through two points it returns in the direction opposite to the one it left in.", "quantifier": "all point lists of length at least 2, all tolerances >= 0, closed or not", "why_tests_cant": "smoothness is a statement about derivatives, and the accuracy of an iteration cut off at 50 sweeps must hold for arbitrarily many points of any size", "anchors": [{"file": "src/hypervehicle/geometry/path.py", "symbol": "Spline.__init__"}]}
{"id": "C87", "title": "A fin of uniform thickness is closed", "statement": "For a fin with uniform thickness, flat rudder or (with p1 in the plane z=0) sharp rudder, p1, p2 and p2, p3 differing in x, any fin and pivot angle and no offset function, every side of every patch meets exactly one other side: exactly, up to the end gap of a quarter ellipse, or (four sides along the leading edge) up to that gap and the misplaced corner of the leading edge; and such a fin can always be built when the ellipse gaps pass the corner tolerance of CoonsPatch.", "quantifier": "all planforms, thicknesses, widths, angles and rudders", "why_tests_cant": "continuum of seams and parameters", "anchors": [{"file": "src/hypervehicle/components/fin.py", "symbol": "Fin.generate_patches"}, {"file": "src/hypervehicle/geometry/geometry.py", "symbol": "RotatedPatch"}]}
{"id": "C88", "title": "A closed SweptComponent with equal sections encloses area times displacement, with inward normals for counter-clockwise sections", "statement": "If every cross section of a closed SweptComponent is a translate of the first, the signed volume of its STL mesh is minus the scalar product of the last displacement with the vector area of the chord polygon of the first section, at every resolution and for any number of intermediate sections, planar or not. In particular a section that is counter-clockwise about the sweeping direction gives a mesh with negative volume: all normals point inwards.", "quantifier": "all sections of four curves, all numbers of sections and displacements, all resolutions", "why_tests_cant": "a test compares the volume of one body at one resolution; the orientation rule and the exact value hold for all curves and resolutions", "anchors": [{"file": "src/hypervehicle/components/swept.py", "symbol": "SweptComponent.generate_patches"}, {"file": "src/hypervehicle/utilities.py", "symbol": "surfce_to_stl"}]}
{"id": "C89", "title": "The parametric wedge of the hangar is a closed wedge of the documented size and its sensitivities are exact", "statement": "ParametricWedge with any numerical wingspan, chord and thickness builds a vehicle called Wedge with one component, swept_1. After generate() its mesh is closed, has 2400 triangles, lies in the rhombic prism with these diagonals and this length, touches its eight corners, is the unit wedge stretched along the axes, and has signed volume minus wingspan*chord*thickness/2: all normals point inwards. to_stl() writes it to Wedge-swept-0.stl and nothing else. A SensitivityStudy over any of the three (non-zero) parameters succeeds with any non-zero perturbation and returns at every vertex exactly the derivative of its position.", "quantifier": "all parameter values and overrides, all perturbations, any objects existing beforehand", "why_tests_cant": "continuum of parameters; the derivative statement concerns all vertices and perturbation sizes", "anchors": [{"file": "src/hypervehicle/hangar/wedge.py", "symbol": "ParametricWedge.create_instance"}, {"file": "src/hypervehicle/vehicle.py", "symbol": "Vehicle.generate"}, {"file": "src/hypervehicle/vehicle.py", "symbol": "Vehicle.to_stl"}, {"file": "src/hypervehicle/utilities.py", "symbol": "SensitivityStudy.dvdp"}]}
{"id": "C90", "title": "A revolved body encloses the volume of its frusta with a polygon in place of the circle", "statement": "If the revolve lines of RevolvedComponents lie in the plane z=0 and form a chain from the x axis to the x axis, their STL meshes are together closed at every common resolution n, and enclose exactly the volume of the frusta between the sampled points of the lines, with pi replaced by the area of the regular 4n-gon in the unit circle. For straight lines this is the exact volume times that area over pi at every resolution; the factor is always below pi and tends to it. Normals point outwards for lines drawn towards +x; drawing the same line from its other end turns the mesh inside out.", "quantifier": "all revolve lines, all chains of lines, all resolutions", "why_tests_cant": "continuum of profiles and unbounded resolutions; a limit statement", "anchors": [{"file": "src/hypervehicle/components/revolved.py", "symbol": "RevolvedComponent.generate_patches"}, {"file": "src/hypervehicle/geometry/surface.py", "symbol": "RevolvedPatch"}, {"file": "src/hypervehicle/utilities.py", "symbol": "parametricSurfce2stl"}]}
{"id": "C91", "title": "The parametric finner of the hangar is a closed body with four closed fins a quarter turn apart, and its sensitivities are exact", "statement": "ParametricFinner with any numerical parameters builds a vehicle called Finner with the components fuselage, fin_1, ..., fin_4. After generate() the fuselage is closed, lies in the cylinder of the given diameter and length and has the volume of nose cone plus cylinder with a regular 32-gon in place of the circle; every fin is closed with volume height*length*thickness/2 and is fin_1 turned by multiples of 90 degrees about the x axis; normals point outwards; the fins touch the body at its base but reach the radius diameter/2 only in their symmetry plane. to_stl() writes fuselage.stl, fin_1.stl, ..., fin_4.stl and nothing else. A SensitivityStudy over any non-zero parameters succeeds with any non-zero perturbation and returns, at every vertex, the derivative of its position.", "quantifier": "all parameter values and overrides, all perturbations, any objects existing beforehand", "why_tests_cant": "continuum of parameters and perturbations; the derivative statement concerns all vertices", "anchors": [{"file": "src/hypervehicle/hangar/finner.py", "symbol": "ParametricFinner.create_instance"}, {"file": "src/hypervehicle/vehicle.py", "symbol": "Vehicle.generate"}, {"file": "src/hypervehicle/components/composite.py", "symbol": "CompositeComponent.add_component"}, {"file": "src/hypervehicle/utilities.py", "symbol": "SensitivityStudy.dvdp"}]}
{"id": "C92", "title": "The Cart3D transformation is a rotation that is its own inverse, so applying it twice undoes it", "statement": "Adding the CART3D transformation to a vehicle generates the same components followed by the rotation (x,y,z) -> (-x,-z,-y): distances and orientation are kept, and the points of the line x=0, z=-y stay where they are. The rotation is its own inverse, so a vehicle created with CART3D among its transformations and then transformed by CART3D again (as the script at the end of the ReFEX module does) has exactly the patches and the meshes it would have had without CART3D at all.", "quantifier": "all vehicles and component options, all existing transformations, all points", "why_tests_cant": "continuum of geometries; the cancellation holds for every vehicle, not for a sample", "anchors": [{"file": "src/hypervehicle/transformations.py", "symbol": "CART3D"}, {"file": "src/hypervehicle/vehicle.py", "symbol": "Vehicle.add_vehicle_transformations"}, {"file": "src/hypervehicle/vehicle.py", "symbol": "Vehicle.transform"}, {"file": "src/hypervehicle/hangar/refex.py", "symbol": "ReFEX"}]}
{"id": "C93", "title": "The direction in which a revolve line is drawn decides which way the normals point; the library's own ogive nose is inside out", "statement": "A RevolvedComponent whose line runs in the upper half of the plane z=0 from the x axis to the x axis is closed at every resolution. If x never increases along the line, the enclosed (signed) volume is negative at every resolution from 2 on, so all analysis of mass and volume gives negative values; if x never decreases, it is positive. In both cases it is bounded by the volume of the cylinder around the profile. At resolution 1 nothing is enclosed. OgiveNose draws from the tip to the base, so every ogive nose is watertight but inside out.", "quantifier": "all profiles monotone in x, all resolutions, all admissible ogive parameters", "why_tests_cant": "continuum of profiles and parameters, unbounded resolutions", "anchors": [{"file": "src/hypervehicle/components/revolved.py", "symbol": "RevolvedComponent.generate_patches"}, {"file": "src/hypervehicle/components/common.py", "symbol": "OgiveNose"}, {"file": "src/hypervehicle/geometry/path.py", "symbol": "Polyline"}]}
{"id": "C94", "title": "The parametric Falcon 9 of the hangar is closed but inside out, so its mass is negative", "statement": "ParametricFalcon9, for every choice of radii with 0 < r_n < h < r_o and positive diameter and lengths, builds a vehicle called SpaceX Falcon 9 with two unnamed revolved components, named revolved_1 (fairing) and revolved_2 (body). After generate() both meshes are closed (160000 and 40000 triangles), stay inside the cylinder around their profile, reach its two ends on the axis, and enclose a strictly negative signed volume; so analyse() with positive densities returns a negative volume and a negative mass. The tail of the fairing ends at x = -1.3 f_L inside the body, which begins at -f_L. The body encloses the full prism over the 200-gon iff 50*D/2 is a multiple of D+L_b. to_stl() writes <prefix or vehicle name>-revolved-0.stl and -1.stl and nothing else.", "quantifier": "all admissible parameter values and overrides, all positive densities, any objects existing beforehand, all prefixes", "why_tests_cant": "continuum of parameters; sign of the volume for all of them", "anchors": [{"file": "src/hypervehicle/hangar/falcon9.py", "symbol": "ParametricFalcon9.create_instance"}, {"file": "src/hypervehicle/vehicle.py", "symbol": "Vehicle.generate"}, {"file": "src/hypervehicle/vehicle.py", "symbol": "Vehicle.analyse"}, {"file": "src/hypervehicle/vehicle.py", "symbol": "Vehicle.to_stl"}]}
{"id": "C95", "title": "A closed cylinder drawn as one polyline keeps its edges only if they fall on the sampling grid", "statement": "A RevolvedComponent whose line is the Polyline of a cap, a side and a cap of a cylinder of radius r between x=a and x=b is closed at every resolution n. Its mesh encloses exactly the prism over the regular 4n-gon iff n*r is an integer multiple of the length 2r+|b-a| of the line; at every other resolution the edges are cut off and the enclosed volume is strictly smaller.", "quantifier": "all radii, ends and resolutions", "why_tests_cant": "arithmetic condition over a continuum of shapes and all resolutions", "anchors": [{"file": "src/hypervehicle/geometry/path.py", "symbol": "Polyline"}, {"file": "src/hypervehicle/components/revolved.py", "symbol": "RevolvedComponent.generate_patches"}, {"file": "src/hypervehicle/utilities.py", "symbol": "parametricSurfce2stl"}]}
{"id": "C96", "title": "A component next to its deep copy is a mirror pair only with append_reflection=False", "statement": "For every vehicle and every component c not yet in it: after add_component(deepcopy(c)); add_component(c, reflection_axis=a, append_reflection=b); generate(), the mesh of c is the mirror image in a of the mesh m of the copy if b is False, and m followed by its mirror image if b is True, the default and what the X-43 and HTV-2 generators pass; so by default every triangle of the copy is in the vehicle twice. In a vehicle of only these two with equal densities, analyse() returns the volume and mass of one body by default and 0 with append_reflection=False, never those of two bodies.", "quantifier": "all vehicles, components, axes, names, resolutions, densities", "why_tests_cant": "all components and vehicles; needs the heap separation of deep copies", "anchors": [{"file": "src/hypervehicle/vehicle.py", "symbol": "Vehicle.add_component"}, {"file": "src/hypervehicle/components/component.py", "symbol": "Component.reflect"}, {"file": "src/hypervehicle/hangar/x43.py", "symbol": "ParametricX43.create_instance"}, {"file": "src/hypervehicle/hangar/htv.py", "symbol": "ParametricHTV.create_instance"}, {"file": "src/hypervehicle/hangar/waverider.py", "symbol": "ParametricWaverider.create_instance"}]}
{"id": "C97", "title": "Which files to_stl writes, and when the prefix makes it fail half way", "statement": "If all components can be meshed and their files opened, to_stl(prefix) writes the STL files and, if there are analysis results or properties, makes the directory P_properties (P the prefix, or the vehicle name without one) and writes P_volmass.csv, P_cog.txt, P_moi.txt and P_properties.csv into it, every other file staying as it was; without results nothing else is written and no directory is made. This holds for prefixes without a slash. For a relative prefix d/b the call succeeds iff the directory d/b_properties/d already exists; otherwise it raises OSError after writing all STL files and making an empty d/b_properties. For an absolute prefix the directory is made but the result files are put beside it. If the first file cannot be opened nothing is written. A non-empty list for merge raises NotImplementedError only after every file has been written.", "quantifier": "all vehicles, results, prefixes, file systems", "why_tests_cant": "all strings as prefixes and all states of the file system", "anchors": [{"file": "src/hypervehicle/vehicle.py", "symbol": "Vehicle.to_stl"}, {"file": "src/hypervehicle/components/component.py", "symbol": "Component.to_stl"}]}
{"id": "C98", "title": "Saved analysis results: when they exist and which state of the vehicle they describe", "statement": "After any sequence of analyse_after_generating, add_property, generate, analyse and transform calls, stored analysis results come with a summary table. Without analyse_after_generating no analysis is ever written by to_stl, however often analyse() was called. The summary table of analyse(d) lists the named components in order with their mass, volume and area under d, and its last line is the sum of the others and equals the returned volume and mass. After generate() with densities d1 and then analyse(d2), to_stl writes the table for d2 next to the centre of gravity and moments of inertia for d1. transform() after generate() leaves the stored results as they were, so the new meshes are written with the old results. If the analysis raises, generate() raises although the vehicle is generated. The properties written are the values last given to add_property, one for each name.", "quantifier": "all vehicles, densities and sequences of calls", "why_tests_cant": "unbounded call histories", "anchors": [{"file": "src/hypervehicle/vehicle.py", "symbol": "Vehicle.analyse"}, {"file": "src/hypervehicle/vehicle.py", "symbol": "Vehicle.generate"}, {"file": "src/hypervehicle/vehicle.py", "symbol": "Vehicle.analyse_after_generating"}, {"file": "src/hypervehicle/vehicle.py", "symbol": "Vehicle.to_stl"}, {"file": "src/hypervehicle/utilities.py", "symbol": "assess_inertial_properties"}]}
{"id": "C99", "title": "Reflecting half a body does not close it", "statement": "If a component lies on one side of the plane of its reflection (touching it or not), the component together with its appended mirror image is watertight iff the half alone is: open edges in the plane are doubled, not matched. If the half has any edge in the plane, the whole fails stl_check's edge test whether it was open or closed. The same holds for the reflected one of a component and its deep copy in a vehicle. If the mirrored triangles were turned over, every half body that is open only along the plane would be closed.", "quantifier": "all meshes, patches, axes, resolutions, clusterings and vehicles", "why_tests_cant": "all half bodies at all resolutions; an equivalence on edge multisets", "anchors": [{"file": "src/hypervehicle/components/component.py", "symbol": "Component.reflect"}, {"file": "src/hypervehicle/vehicle.py", "symbol": "Vehicle.add_component"}, {"file": "src/hypervehicle/hangar/htv.py", "symbol": "ParametricHTV"}, {"file": "src/hypervehicle/hangar/x43.py", "symbol": "ParametricX43"}, {"file": "src/hypervehicle/hangar/waverider.py", "symbol": "ParametricWaverider"}, {"file": "src/hypervehicle/components/component.py", "symbol": "Component.stl_check"}]}
{"id": "C100", "title": "Mass, volume and area sensitivities: their values and the names they are written under", "statement": "A sensitivity study of a vehicle that is analysed on generation has, for each parameter, the difference quotients of the tables of mass, volume and area of the perturbed and the nominal vehicle: line by line if the components have the same names in the same order, otherwise joined by name in lexical order, empty where one of the vehicles lacks the component. volmass_sensitivity.csv has a column for each parameter and three lines for each component, but takes the names of all lines from the last parameter: writing it raises ValueError iff the tables differ in length, and a value stands in a line of its own name for all parameters iff all tables have the names of the last one. In exact arithmetic the line of the vehicle is the sum of the lines of its components.", "quantifier": "all constructors, parameter dictionaries, perturbations and tables", "why_tests_cant": "all constructors, including those whose parameters add or remove components; an equivalence for correct labelling", "anchors": [{"file": "src/hypervehicle/utilities.py", "symbol": "SensitivityStudy.dvdp"}, {"file": "src/hypervehicle/utilities.py", "symbol": "SensitivityStudy.to_csv"}, {"file": "src/hypervehicle/vehicle.py", "symbol": "Vehicle.analyse"}]}
{"id": "C101", "title": "Which files a sensitivity study writes", "statement": "SensitivityStudy.to_csv makes the output directory (one level only: with a missing parent it raises and writes nothing), writes one table per component and the combined one, and, iff the study has analysis results or properties, a directory scalar_sensitivities with the mass/volume/area table, two files per parameter for centre of gravity and moments of inertia, and the property table; no other file changes, and a later file of the same name wins. If the vehicles of two parameters have different numbers of components, it raises after the component tables, leaving the new directory without any file. The property table has the properties of the nominal vehicle as lines and the difference quotients as cells.", "quantifier": "all studies, directories and previous contents of the file system", "why_tests_cant": "all combinations of components, parameters, existing directories and files; the failure half-way", "anchors": [{"file": "src/hypervehicle/utilities.py", "symbol": "SensitivityStudy.to_csv"}, {"file": "src/hypervehicle/utilities.py", "symbol": "SensitivityStudy.dvdp"}]}
{"id": "C102", "title": "A wing's thickness is needed over its planform only", "statement": "A Wing whose two thickness functions are defined (and vertical) only for x between the trailing edge and the tip can be constructed, its patches generated, and every patch evaluated on the whole unit square, hence meshed; any other thickness functions that agree over that range of x give the same surfaces. If the top thickness function raises somewhere above the root chord, the patches are still generated without an error and meshing raises.", "quantifier": "all wings with straight-across trailing edge and a leading edge that runs forwards, all thickness functions, all root finders that stay in their interval and answer on a sign change", "why_tests_cant": "all shapes, and all parameters in the unit square: a single point outside the planform would raise", "anchors": [{"file": "src/hypervehicle/components/wing.py", "symbol": "Wing.generate_patches"}, {"file": "src/hypervehicle/geometry.py", "symbol": "OffsetPatchFunction"}, {"file": "src/hypervehicle/geometry.py", "symbol": "MeanLeadingEdgePatchFunction"}]}
{"id": "C103", "title": "ParametricHTV: what create_instance delivers", "statement": "For all positive lengths and leading-edge radii (within 10^6 of thickness) and any body width, flap angle and non-zero nominal values, ParametricHTV(**kw).create_instance() followed by generate succeeds and has three components of 2600, 1300 and 2600 triangles: the body with its mirror image in y, one flap, and the same flap together with its mirror image, so one of the two flaps is there twice; to_stl writes exactly these three meshes. The mesh checker never accepts the body, whose edges in the plane of symmetry occur twice in the same direction. analyse gives the volume and mass of one flap alone: body and third component contribute nothing, so the result is the same for every height h and every density given to the body.", "quantifier": "all parameter values, heaps, root finders that stay in their interval and answer on a sign change, all mass functions that return the signed volume and its product with the density", "why_tests_cant": "all parameters; the thickness function of the body searches for a root at each point it is evaluated and raises outside the body", "anchors": [{"file": "src/hypervehicle/hangar/htv.py", "symbol": "ParametricHTV.create_instance"}, {"file": "src/hypervehicle/components/wing.py", "symbol": "Wing.generate_patches"}, {"file": "src/hypervehicle/vehicle.py", "symbol": "Vehicle.add_component"}, {"file": "src/hypervehicle/vehicle.py", "symbol": "Vehicle.analyse"}]}
{"id": "C104", "title": "analyse counts reflected components with sign 0 or -1", "statement": "For any vehicle of separately built components whose options only turn and reflect them, generate succeeds and the volume and mass returned by analyse are the sums over the named components of sign times the volume (times the density) of the part as its constructor describes it: the sign is 1 without reflection_axis, 0 with reflection_axis and append_reflection=True, and -1 with append_reflection=False. The angle of attack, rotations of components and rotations of the vehicle have no influence. A vehicle whose components all carry their mirror image has volume and mass zero, whatever the densities.", "quantifier": "all vehicles, heaps, patches defined on the unit square, numbers of components, rotations, axes and densities; all mass functions that return the signed volume and its product with the density", "why_tests_cant": "any number of components and any geometry; a test with one reflected component cannot tell cancellation from a small mass", "anchors": [{"file": "src/hypervehicle/vehicle.py", "symbol": "Vehicle.add_component"}, {"file": "src/hypervehicle/vehicle.py", "symbol": "Vehicle.analyse"}, {"file": "src/hypervehicle/components/component.py", "symbol": "Component.reflect"}, {"file": "src/hypervehicle/utilities.py", "symbol": "assess_inertial_properties"}]}
{"id": "C105", "title": "ParametricX43: what create_instance delivers, and its control surfaces", "statement": "For all body lengths in (0, 10^6], positive widths, spans, wing and fin lengths, rudders shorter than half a fin and flaps that do not reach past the middle of the wing, ParametricX43(**kw).create_instance() followed by generate succeeds. It has six components body, wing1, wing2, inlet, fin1, fin2 of 1664, 304, 608, 1664, 208 and 208 triangles; wing1 is a copy of one half of wing2, so one of the two wings is there twice; to_stl writes exactly these meshes to <prefix>-<name>.stl, or <name>.stl without prefix. The mesh checker never accepts body or inlet. The free corners of the flap lie where a turn by flap_angle taken as radians puts them, towards +z for positive angles (the attribute is documented in degrees and +ve up); the free corners of both rudders where rudder_angle degrees puts them, both to the same side. analyse gives the volume and mass of wing1, fin1 and fin2 alone.", "quantifier": "all parameter values, heaps, root finders that stay in their interval and answer on a sign change, all mass functions that return the signed volume and its product with the density", "why_tests_cant": "all parameters; three curved thickness functions, a root search per wing, and two conventions for angles that agree at the default angle 0", "anchors": [{"file": "src/hypervehicle/hangar/x43.py", "symbol": "ParametricX43.create_instance"}, {"file": "src/hypervehicle/components/wing.py", "symbol": "Wing.generate_patches"}, {"file": "src/hypervehicle/components/fin.py", "symbol": "Fin.generate_patches"}, {"file": "src/hypervehicle/vehicle.py", "symbol": "Vehicle.add_component"}, {"file": "src/hypervehicle/vehicle.py", "symbol": "Vehicle.analyse"}]}
{"id": "C106", "title": "ParametricD21: what create_instance delivers, and the wing's thickness spike", "statement": "For all body radii in (0, 10^6], wing lengths in (0.75, L_b), positive wing widths, flap angles and wing and fin resolutions, ParametricD21(**kw).create_instance() followed by generate succeeds. It has six components: the fuselage and the nose are watertight, of 6400 triangles each, and inside out; the fuselage encloses the volume of a regular 80-gon prism exactly when 20 R_b is a multiple of 2 R_b + L_b and less otherwise; the mesh checker never accepts the wing; the ends of the flap's trailing edge lie where a turn by flap_angle degrees towards +z puts them; the tail and the small wings have the stated corners, and the second small wing is the first turned by 180 degrees about x. to_stl writes each to its own file <prefix or vehicle name>-<type>-<count>.stl. analyse gives the volume and mass of fuselage, nose, tail and twice the small wing; the wing contributes nothing. When the wing resolution n satisfies 41 L_w + 51 W_w <= 30 W_w n, the wing has a vertex at x = -0.3, z = 500 y - 0.5 - 0.075 R_b with y >= 0.24 W_w/n: more than 80 m off a wing 16 m long at the default sizes and n = 7.", "quantifier": "all parameter values, resolutions, heaps, prefixes, file systems, and root finders that try the ends and then bracket a root (to within 10^-6 for the spike); exact arithmetic", "why_tests_cant": "all parameters; the default resolution 3 steps over the spike, where the leading edge runs across the span and the local half span found is that of the apex, 0 replaced by 0.001", "anchors": [{"file": "src/hypervehicle/hangar/d21.py", "symbol": "ParametricD21.create_instance"}, {"file": "src/hypervehicle/components/wing.py", "symbol": "Wing.generate_patches"}, {"file": "src/hypervehicle/components/fin.py", "symbol": "Fin.generate_patches"}, {"file": "src/hypervehicle/components/revolved.py", "symbol": "RevolvedComponent.generate_patches"}, {"file": "src/hypervehicle/vehicle.py", "symbol": "Vehicle.analyse"}, {"file": "src/hypervehicle/vehicle.py", "symbol": "Vehicle.to_stl"}]}
{"id": "C107", "title": "No option opens a closed component", "statement": "Take a component whose mesh without options is watertight, at an integer resolution and with any clustering. Add any modifier function, any curvatures, a vehicle angle, a reflection axis with or without appending, and any list of rotations and translations. If every option is defined on the mesh, generation succeeds and the mesh is watertight, with as many triangles, or twice as many when the reflection is appended. Conversely, if nothing is appended and the option maps keep different vertices apart, the mesh with the options is watertight exactly when the mesh without them is.", "quantifier": "all patches, resolutions, clusterings, option functions, angles, axes and transformation lists; exact arithmetic", "why_tests_cant": "option functions are arbitrary user code: closedness has to follow from moving vertices as vertices, not from any one function", "anchors": [{"file": "src/hypervehicle/components/component.py", "symbol": "Component.curve"}, {"file": "src/hypervehicle/components/component.py", "symbol": "Component.rotate"}, {"file": "src/hypervehicle/components/component.py", "symbol": "Component.reflect"}, {"file": "src/hypervehicle/components/component.py", "symbol": "Component.apply_modifier"}, {"file": "src/hypervehicle/components/component.py", "symbol": "Component.surface"}, {"file": "src/hypervehicle/components/component.py", "symbol": "Component.to_stl"}]}
{"id": "C108", "title": "Which clustering functions keep a closed component closed", "statement": "Let the i and j clustering functions map [0,1] into itself and keep 0 and 1. A RevolvedComponent whose line ends on the axis is watertight under any two of them, at any integer resolution. A closed SweptComponent with exactly meeting edges is watertight at resolution N when both functions agree at the nodes k/N and are symmetric there, g(1 - k/N) = 1 - g(k/N). For a box and increasing functions this is also necessary. With RobertsFunction in both directions (equal beta > 1; no flag meaning no clustering) the box at resolution N is watertight exactly when N = 1, or no direction is clustered at one end only and either N = 2 or both directions have the same flags: clustering only i, or both directions at one end, opens it.", "quantifier": "all lines, cross sections, clustering functions, resolutions and beta > 1; exact arithmetic", "why_tests_cant": "resolutions 1 and 2 stay closed for clusterings that open the mesh at 3 and above", "anchors": [{"file": "src/hypervehicle/components/component.py", "symbol": "Component.add_clustering_options"}, {"file": "src/hypervehicle/geometry/path.py", "symbol": "RobertsFunction"}, {"file": "src/hypervehicle/geometry/path.py", "symbol": "clustered_roberts"}, {"file": "src/hypervehicle/components/swept.py", "symbol": "SweptComponent.generate_patches"}, {"file": "src/hypervehicle/components/revolved.py", "symbol": "RevolvedComponent.generate_patches"}, {"file": "src/hypervehicle/utilities.py", "symbol": "surfce_to_stl"}]}
{"id": "C109", "title": "What the parametric HIFiRE 4 delivers", "statement": "With x_curve_mult and y_curve_mult any numbers, 0 < R <= 1000000, L_n, L_b > 0 and L_n + L_b >= 0.75, ParametricHIFiRE4 generates five components, named revolved_1, wing_1 and fin_1 to fin_3, and writes each to its own file HIFiRE4-<type>-<n>.stl. The fuselage has 6400 triangles and is watertight whenever R is a whole number of millionths; with both multipliers 0, only then. Its nose is at the origin and its tail on the arch, at (-L, 0, x_curve_mult L^2 / 20). The STL checker never accepts the wing with its mirror image, and analyse counts it with volume and mass 0. The three fins are translates of one fin; their corners are at the heights of the lengthwise arch, whatever y_curve_mult is. The outer flap corner of the right wing is at the middle of the foot of the right fin exactly when y_curve_mult = 0; with the default attributes it lies inboard of the fin's inner face and above the fin. If L_n + L_b < 0.75, create_instance raises ValueError.", "quantifier": "all multipliers, radii, lengths in range, keywords, heaps, prefixes, file systems, densities and bisect functions with the documented contract; exact arithmetic", "why_tests_cant": "closedness of the fuselage hinges on the sixth decimal of R, and the gap between wing and fin is zero only at one value of a continuous parameter", "anchors": [{"file": "src/hypervehicle/hangar/hifire4.py", "symbol": "ParametricHIFiRE4"}, {"file": "src/hypervehicle/components/wing.py", "symbol": "Wing.generate_patches"}, {"file": "src/hypervehicle/components/fin.py", "symbol": "Fin.generate_patches"}, {"file": "src/hypervehicle/components/revolved.py", "symbol": "RevolvedComponent.generate_patches"}, {"file": "src/hypervehicle/components/component.py", "symbol": "Component.curve"}, {"file": "src/hypervehicle/vehicle.py", "symbol": "Vehicle.to_stl"}]}
{"id": "C110", "title": "What the parametric waverider delivers", "statement": "For any length > 0, 0 <= p2x <= p3x <= length, u1y nonzero, 0 < LE_thickness <= 1000, le_width >= 0.001, 0 <= a0_t <= tt_t <= 1, any other attributes and any positive STL resolutions, ParametricWaverider generates five components, named fuselage, wings, right_flap, left_flap and fin, and to_stl writes every one, the fuselage too, to its own file. The fuselage is watertight, reaches from the origin to the bent tail, and without curvature has nothing below z = 0. The STL checker never accepts the wings with their mirror image. The left flap is the exact mirror image of the right one in the wind frame. analyse reports the volume of fuselage and fin only, and the mass of the flaps only as the difference of their two densities. At the tail the centre line points degrees(aoa) + (s - atan s) downward, s its slope before the rotation: the requested incidence exactly when x_curve_mult = curve_zero. If p2x lies off the fuselage, which happens when only the length is set below 1/3, create_instance raises ValueError. Along the centre line, from the trailing edge to mid-length, the upper skin of the wings has vertices at the height of the fuselage profile there plus half the leading-edge thickness, whatever the thickness contour's u1y is.", "quantifier": "all attribute values in range, keywords, resolutions, heaps, prefixes, file systems, densities and bisect functions with the documented contract; exact arithmetic", "why_tests_cant": "28 continuous attributes; the incidence error is third order in the curvature and vanishes at one value; mirrored volumes cancel exactly only in exact arithmetic", "anchors": [{"file": "src/hypervehicle/hangar/waverider.py", "symbol": "ParametricWaverider"}, {"file": "src/hypervehicle/hangar/waverider.py", "symbol": "ParametricWaverider._adjust_aoa"}, {"file": "src/hypervehicle/components/revolved.py", "symbol": "RevolvedComponent.generate_patches"}, {"file": "src/hypervehicle/components/wing.py", "symbol": "Wing.generate_patches"}, {"file": "src/hypervehicle/components/fin.py", "symbol": "Fin.generate_patches"}, {"file": "src/hypervehicle/vehicle.py", "symbol": "Vehicle.to_stl"}, {"file": "src/hypervehicle/vehicle.py", "symbol": "Vehicle.analyse"}]}
{"id": "C111", "title": "circle_patch is a disc in the plane z = 0 and depends on the height of its centre", "statement": "For a centre with z = 0 and r != 0, circle_patch returns a surface defined everywhere; over the unit square it stays within |r| of the centre and in the plane z = 0, and its four edges are the four quarters of the circle between the diagonals. The plane argument changes nothing. r = 0 raises. For a centre off the plane the four edges no longer meet: they are sqrt(2) r z / sqrt(r^2 + z^2) apart in y at two corners, and the call raises exactly when that exceeds the corner tolerance 1e-5 + 1e-2 |y| there.", "quantifier": "all centres, radii, planes and parameters; exact arithmetic", "why_tests_cant": "containment is a claim about every point of a two-parameter surface, and acceptance depends on three continuous inputs through a relative tolerance", "anchors": [{"file": "src/hypervehicle/components/common.py", "symbol": "circle_patch"}, {"file": "src/hypervehicle/geometry/path.py", "symbol": "Arc"}, {"file": "src/hypervehicle/geometry/surface.py", "symbol": "CoonsPatch"}]}
{"id": "C112", "title": "The parametric HIFiRE 8 delivers six meshes: one wing whatever the keywords, an inside-out fuselage, and a third fin sunk into the body", "statement": "Building and generating ParametricHIFiRE8 with any L, R_base, nozzle_length > 0 and any R_nose >= 0.075 succeeds and delivers exactly six components, fuselage, wing, nose, fin1, fin2 and fin3, each with its own mesh and each exported to its own file named <prefix->name.stl (no vehicle name is used when no prefix is given). The wing does not depend on any keyword: it reaches from the origin to x = 1.5, so it is ahead of the whole fuselage when L < 1.5 and ahead of the tip of the nose when L < 1. The fuselage is closed, starts at x = L with the nose radius, ends on the axis at x = -nozzle_length, and is inside out: its signed volume is negative for all parameters. Its flat base is drawn as such only if 7 R_base >= sqrt(L^2+(R_base-R_nose)^2)+nozzle_length; otherwise, the default included, every mesh vertex at the rear is on the axis and the base is a cone. The nose meets the rim of the fuselage and ends at L + 0.5. STL checking never accepts the wing or the nose. The second fin is the first turned by a right angle. The corner of the first fin stands 0.16 above the body; the corner of the third is inside the body exactly when R_base > 0.16, the default included. analyse reports the (negative) volume of the fuselage plus the fins and nothing for wing and nose.", "quantifier": "forall real L, R_base, nozzle_length > 0 and R_nose >= 3/40, all keyword dictionaries giving them, all heaps, all prefixes and file systems, all bisection routines that answer within the interval", "why_tests_cant": "A test runs the default dimensions; the sign of the volume, the base threshold and the fin corners are relations between four real parameters, and the claim that nothing else is written or shared ranges over all heaps and file systems.", "anchors": [{"file": "src/hypervehicle/hangar/hifire8.py", "symbol": "ParametricHIFiRE8.create_instance"}, {"file": "src/hypervehicle/hangar/hifire8.py", "symbol": "ParametricHIFiRE8.__init__"}, {"file": "src/hypervehicle/components/composite.py", "symbol": "CompositeComponent"}, {"file": "src/hypervehicle/vehicle.py", "symbol": "Vehicle.generate"}, {"file": "src/hypervehicle/vehicle.py", "symbol": "Vehicle.analyse"}, {"file": "src/hypervehicle/vehicle.py", "symbol": "Vehicle.to_stl"}]}
{"id": "C113", "title": "The parametric ReFEX delivers seven meshes in the Cart3D frame, and its own script takes them out of it again", "statement": "Building and generating ParametricReFEX with every part switched on, a cannard_shift without z component and any fair attributes (0 < r_n < h < r_o, positive lengths and heights, bounded thicknesses) succeeds and delivers exactly seven components: nose, body, two canards, wing, transition and tail, each with its own mesh in the Cart3D frame and each exported to its own file <prefix, or ReFEX>-<type>-<k>.stl, leaving every other file alone. Transforming once more by CART3D, as the script at the end of the module does, turns the meshes back into the frame they were drawn in. Nose, body and transition are closed; nose and body are inside out, and the body has exactly the volume of its polygonal cylinder only if 50 h is a whole multiple of 2 h + L_b, which the defaults are not. STL checking never accepts the wing. The second canard is the first turned, and the six corners of its faces are the mirror images of the first's for every canard_angle. The square part of the transition stands sqrt 2 h from the axis, outside the body; the nose reaches into the body when L_o < L_b. analyse reports the sum of the signed volumes with nothing for the wing and negative contributions from nose and body.", "quantifier": "forall real attributes with the inequalities above, all keyword dictionaries giving them, all planar shifts, all heaps, all prefixes and file systems, all densities, all bisection routines that answer within the interval", "why_tests_cant": "A test runs the default dimensions and one file system; corner positions, mirror images at every canard angle and the exact-volume condition are relations between eleven real attributes, and the claim that nothing else is written or shared ranges over all heaps and file systems.", "anchors": [{"file": "src/hypervehicle/hangar/refex.py", "symbol": "ParametricReFEX.create_instance"}, {"file": "src/hypervehicle/hangar/refex.py", "symbol": "ParametricReFEX.__init__"}, {"file": "src/hypervehicle/components/swept.py", "symbol": "SweptComponent"}, {"file": "src/hypervehicle/components/fin.py", "symbol": "Fin"}, {"file": "src/hypervehicle/vehicle.py", "symbol": "Vehicle.transform"}, {"file": "src/hypervehicle/vehicle.py", "symbol": "Vehicle.generate"}, {"file": "src/hypervehicle/vehicle.py", "symbol": "Vehicle.analyse"}, {"file": "src/hypervehicle/vehicle.py", "symbol": "Vehicle.to_stl"}]}
{"id": "C114", "title": "Switching parts of the ReFEX off leaves the others as they were, but renames the tail", "statement": "For all sixteen settings of the switches generate_fuselage, generate_wings, generate_canards and generate_tail, building and generating ParametricReFEX with fair attributes and a cannard_shift without z component succeeds. The vehicle then has exactly the components that are switched on, in the usual order (nose and body, canards, wing, transition, tail), with the same meshes in the Cart3D frame whatever the other switches say. Nose, body, wing and transition keep their names and files; canards and tail are counted together, so the tail is fin_3 in <prefix>-fin-2.stl beside the canards and fin_1 in <prefix>-fin-0.stl without them. Exporting writes one file for each component switched on and leaves every other file alone, so with everything off nothing is written. As soon as one part is on, analyse reports as volume and mass the totals over the parts that are switched on.", "quantifier": "forall settings of the four switches, all fair real attributes, all keyword dictionaries giving them, all planar shifts, all heaps, all prefixes and file systems, all densities of the parts switched on, all bisection routines that answer within the interval", "why_tests_cant": "The sixteen settings multiply with eleven real attributes and any earlier state of the program: that a part's mesh does not depend on the other switches, and that no file of a missing part is touched, are statements about all of them at once.", "anchors": [{"file": "src/hypervehicle/hangar/refex.py", "symbol": "ParametricReFEX.create_instance"}, {"file": "src/hypervehicle/hangar/refex.py", "symbol": "ParametricReFEX.__init__"}, {"file": "src/hypervehicle/vehicle.py", "symbol": "Vehicle.add_component"}, {"file": "src/hypervehicle/vehicle.py", "symbol": "Vehicle.generate"}, {"file": "src/hypervehicle/vehicle.py", "symbol": "Vehicle.analyse"}, {"file": "src/hypervehicle/vehicle.py", "symbol": "Vehicle.to_stl"}]}
{"id": "C115", "title": "A deep copy of a composite is independent of the original down to its children; a shallow copy shares the children", "statement": "copy.deepcopy of a composite component whose children are ordinary components gives a new composite with the same options, caches and patches, whose children are new components: one copy for each child of the original, with the same options and patches, and a child that occurs twice in the original is one child occurring twice in the copy. No sequence of calls (transformations, generate_patches, the whole generation pipeline, dropping the caches, in any order) on the copy or on one of its children changes any component that existed before, and none on the original or its children changes the copy or its children. Generating the patches of the copy gives the patches the original would generate and leaves the original as it was. copy.copy of a composite makes a new composite that has the very children of the original.", "quantifier": "forall heaps in which no two components share a dictionary, all composites and all lists of children (repeats included), all sequences of calls on copy, original or children", "why_tests_cant": "Independence is a statement about every later sequence of calls on either object and about every other object in the program; a test can only try a few sequences and look at a few objects.", "anchors": [{"file": "src/hypervehicle/components/component.py", "symbol": "Component.__deepcopy__"}, {"file": "src/hypervehicle/components/component.py", "symbol": "Component.__copy__"}, {"file": "src/hypervehicle/components/composite.py", "symbol": "CompositeComponent"}, {"file": "src/hypervehicle/components/composite.py", "symbol": "CompositeComponent.generate_patches"}]}
