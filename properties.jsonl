{"id": "C01", "title": "Lossless re-export", "statement": "If VisibleMesh(path) succeeds on a file that contains no signalling-NaN single and whose index count is not 1, then export(other, update_bounds=False) writes a file byte-for-byte equal to the original.", "quantifier": "every byte string accepted by the loader, each of the four file kinds, both sizes of the C long and both byte orders", "why_tests_cant": "the claim is about all loadable files: all counts, versions, negative counts, string contents and float bit patterns", "anchors": ["bf2mesh/visiblemesh.py: VisibleMesh.__load, VisibleMesh.__export", "bf2mesh/io.py: read_*, write_*"]}
{"id": "C02", "title": "Save/reload identity", "statement": "For every consistent in-memory mesh (counts equal to list lengths, integers in range of their on-disk type, optional fields present exactly when the format stores them), exporting with update_bounds=False and loading the file back with the same kind yields the same mesh with every float rounded to the nearest single (and exactly the same mesh if all floats are already singles).", "quantifier": "every consistent mesh, kind, version and platform", "why_tests_cant": "universally quantified over mesh contents, including those produced by editing", "anchors": ["bf2mesh/visiblemesh.py: VisibleMesh.__load, VisibleMesh.__export", "bf2mesh/io.py"]}
{"id": "C03", "title": "Loaded meshes are consistent", "statement": "Every mesh produced by a successful load has tables whose lengths agree with the counts read from the file (geoms, lods, attributes, indices, materials, maps, nodes, rigs, bones), a vertex array of int(vertstride/vertformat*vertnum) numbers, integers in range of their on-disk type, and optional fields present exactly when the kind/version stores them.", "quantifier": "every byte string accepted by the loader", "why_tests_cant": "depends on the whole input space of files", "anchors": ["bf2mesh/visiblemesh.py: VisibleMesh.__load, _bf2geom.load, _bf2lod.load_nodes_rigs, _bf2lod.load_materials"]}
{"id": "C04", "title": "Trailing data is rejected", "statement": "If a file loads, the same file followed by any non-empty sequence of extra bytes raises AttributeError instead of loading.", "quantifier": "every loadable file and every non-empty suffix", "why_tests_cant": "infinitely many files and suffixes", "anchors": ["bf2mesh/visiblemesh.py: VisibleMesh.__load lines 112-117"]}
{"id": "C05", "title": "Truncated files are rejected", "statement": "If a file loads, then every strict prefix of it raises struct.error; no truncated file is silently accepted as a smaller mesh.", "quantifier": "every loadable file and every truncation point", "why_tests_cant": "every truncation point of every file", "anchors": ["bf2mesh/visiblemesh.py: VisibleMesh.__load", "bf2mesh/io.py: read_*"]}
{"id": "C06", "title": "Different files give different meshes", "statement": "Two loadable files of the same kind (no signalling NaN, index count not 1) that load to equal mesh contents are the same file.", "quantifier": "all pairs of loadable files", "why_tests_cant": "quantifies over pairs of files", "anchors": ["bf2mesh/visiblemesh.py: VisibleMesh.__load"]}
{"id": "C07", "title": "Re-export is stable even with signalling NaNs", "statement": "Byte-exactness fails for signalling NaNs (a loadable file exists whose re-export differs), but for every loadable file with index count not 1 the re-export has the same length, loads again to the same mesh, and a second re-export reproduces the first byte for byte.", "quantifier": "every loadable file", "why_tests_cant": "float bit patterns cannot be enumerated by tests", "anchors": ["bf2mesh/io.py: read_float, write_float", "bf2mesh/visiblemesh.py: VisibleMesh.__export"]}
{"id": "C08", "title": "Single-index files", "statement": "A file with exactly one index loads, but every later export of that mesh raises TypeError, and the target file is left truncated right after the index count.", "quantifier": "every loadable file with index count 1", "why_tests_cant": "holds for all such files, kinds and versions", "anchors": ["bf2mesh/io.py: read_short", "bf2mesh/visiblemesh.py: __read_indices, __export"]}
{"id": "C09", "title": "Single-number vertex arrays are refused", "statement": "If vertstride/vertformat*vertnum truncates to 1, loading raises TypeError (when the bytes are present); so a loaded mesh never has exactly one vertex number.", "quantifier": "every file", "why_tests_cant": "all files with that header shape", "anchors": ["bf2mesh/io.py: read_float", "bf2mesh/visiblemesh.py: __read_vertices"]}
{"id": "C10", "title": "Files are not portable across C long sizes", "statement": "A file exported where C long has 4 bytes never loads to the same mesh where C long has 8 bytes, and conversely; the expectation of portability is false of the code.", "quantifier": "every loadable file", "why_tests_cant": "every file, two platforms", "anchors": ["bf2mesh/io.py: read_long, write_long"]}
{"id": "C11", "title": "File kind is decided by the extension", "statement": "The kind flags of an opened mesh are determined only by the extension of the filename, ignoring letter case; at most one flag is set; keyword flags passed with a filename (as BundledMesh does) have no effect.", "quantifier": "every filename and every combination of keyword flags", "why_tests_cant": "all strings", "anchors": ["bf2mesh/mesh.py: BF2Mesh.__init__", "bf2mesh/BundledMesh.py: BundledMesh.__init__"]}
{"id": "C12", "title": "A mesh cannot be created without a file", "statement": "VisibleMesh() with no filename (or an empty one) raises AttributeError whatever flags are given.", "quantifier": "every flag combination", "why_tests_cant": "all constructor arguments", "anchors": ["bf2mesh/mesh.py: BF2Mesh.__init__", "bf2mesh/visiblemesh.py: VisibleMesh.__init__, __enter__"]}
{"id": "C13", "title": "Export under another kind's extension", "statement": "export() writes in the format of the mesh's own kind, not of the target extension: for every static v11 mesh with at least one lod the file written under a .skinnedMesh name does not load back to the same mesh; exporting under any name with the same kind does.", "quantifier": "every consistent mesh and pair of kinds", "why_tests_cant": "all meshes", "anchors": ["bf2mesh/visiblemesh.py: VisibleMesh.export, __export", "bf2mesh/mesh.py: BF2Mesh.__init__"]}
{"id": "C14", "title": "Export to a bare filename fails", "statement": "export(name) with a name that has no directory part (as in the README) raises FileNotFoundError before writing anything, for every mesh and file system; export to a name in an existing or creatable directory does not fail for this reason.", "quantifier": "every filename without a slash, every mesh, every file system state", "why_tests_cant": "all names and file systems", "anchors": ["bf2mesh/visiblemesh.py: VisibleMesh.export lines 206-208", "README.md"]}
{"id": "C15", "title": "Failed or interrupted export", "statement": "If export fails while writing, or the process stops after any number of written bytes, the target file holds a prefix of the bytes a complete export would have written; the previous contents are lost (export is not atomic), no other file changes and the object's filename is not updated.", "quantifier": "every mesh, every crash point", "why_tests_cant": "crash points and failing writes", "anchors": ["bf2mesh/visiblemesh.py: VisibleMesh.export"]}
{"id": "C16", "title": "Export frame", "statement": "A successful export with update_bounds=False changes nothing in the mesh but its filename, changes no file except the target, and the target holds exactly the serialised mesh.", "quantifier": "every mesh, filename and file system", "why_tests_cant": "all states", "anchors": ["bf2mesh/visiblemesh.py: VisibleMesh.export"]}
{"id": "C17", "title": "Loading happens once", "statement": "Using an already constructed VisibleMesh as a context manager never re-reads the file: the mesh seen in the with-block is the one loaded by the constructor even if the file has changed or disappeared.", "quantifier": "every file system history between construction and __enter__", "why_tests_cant": "histories of the file system", "anchors": ["bf2mesh/visiblemesh.py: VisibleMesh.__enter__"]}
{"id": "C18", "title": "Translate moves positions only", "statement": "On a mesh whose materials tile the vertex array in order, a successful translate(offset) adds offset[j] to component j of the position of every vertex of every material and leaves every other vertex number, the indices, all tables and counts unchanged.", "quantifier": "every packed mesh, vertex layout, offset and float arithmetic", "why_tests_cant": "all meshes, all floats", "anchors": ["bf2mesh/visiblemesh.py: VisibleMesh.translate"]}
{"id": "C19", "title": "Translate and rotate are all-or-nothing", "statement": "If translate or rotate raises, the mesh is exactly as it was before the call.", "quantifier": "every mesh (well-formed or not) and every argument", "why_tests_cant": "all failure points", "anchors": ["bf2mesh/visiblemesh.py: VisibleMesh.translate, VisibleMesh.rotate"]}
{"id": "C20", "title": "Translate needs a packed mesh", "statement": "For meshes whose materials do not tile the vertex array in order (a loadable file is exhibited) translate silently attaches vertices to the wrong material; and the number of vertex numbers can change so that the exported file no longer loads.", "quantifier": "existence of loadable counterexamples; characterisation for every in-bounds mesh", "why_tests_cant": "counterexample plus universal characterisation", "anchors": ["bf2mesh/visiblemesh.py: VisibleMesh.translate"]}
{"id": "C21", "title": "Translate composes", "statement": "In exact arithmetic translate(a) followed by translate(b) equals translate(a+b), and translate(-a) undoes translate(a); in double arithmetic undoing is not exact (counterexample).", "quantifier": "every packed mesh and pair of offsets", "why_tests_cant": "all offsets", "anchors": ["bf2mesh/visiblemesh.py: VisibleMesh.translate"]}
{"id": "C22", "title": "Rotate touches only position, normal and tangent", "statement": "On a packed mesh whose position/normal/tangent attributes are 3-component and disjoint, a successful rotate replaces each of those triples of every vertex by yaw(pitch(roll(triple))) and leaves every other vertex number, the indices and all tables unchanged. It succeeds whenever no angle is infinite; with an infinite angle math.cos raises ValueError and the mesh is unchanged.", "quantifier": "every such mesh, rotation, sin/cos implementation", "why_tests_cant": "all meshes", "anchors": ["bf2mesh/visiblemesh.py: VisibleMesh.rotate"]}
{"id": "C23", "title": "Rotate is a rigid motion", "statement": "In exact arithmetic the rotation applied by rotate preserves dot products, distances, lengths and orientation (determinant 1), fixes the origin, is the identity for (0,0,0), and yaw/pitch/roll alone compose additively and are undone by the negated angle.", "quantifier": "all angles and vectors", "why_tests_cant": "real-valued inputs", "anchors": ["bf2mesh/visiblemesh.py: VisibleMesh.rotate Rpitch, Ryaw, Rroll"]}
{"id": "C24", "title": "Rotate shrinks 4-component attributes", "statement": "If a position/normal/tangent attribute has 4 components, rotate drops one number per vertex, so the array no longer matches vertnum: a loadable counterexample exists; with 1 or 2 components rotate raises IndexError.", "quantifier": "every vertex with such an attribute", "why_tests_cant": "all layouts", "anchors": ["bf2mesh/visiblemesh.py: VisibleMesh.rotate line 391", "bf2mesh/bf2types.py: D3DDECLTYPE.__len__"]}
{"id": "C25", "title": "Merge compatibility is an equivalence", "statement": "Among meshes of the same kind with known attribute types, canMerge is reflexive, symmetric and transitive, and it is true exactly when the geom/lod/material structure, the material shaders/textures and the attribute tables coincide.", "quantifier": "all pairs/triples of meshes", "why_tests_cant": "relational property over all meshes", "anchors": ["bf2mesh/visiblemesh.py: VisibleMesh.canMerge"]}
{"id": "C26", "title": "Merge is a union of geometry", "statement": "After a successful merge, for every material the list of corners (index resolved to full vertex data) is the list of self's corners followed by the list of other's corners.", "quantifier": "every pair of compatible meshes with in-range material tables", "why_tests_cant": "all meshes", "anchors": ["bf2mesh/visiblemesh.py: VisibleMesh.merge"]}
{"id": "C27", "title": "Merge bookkeeping", "statement": "After a successful merge material counts are sums, materials are laid out consecutively from 0, vertnum/indexnum equal the totals and array lengths, all indices stay below the material's vertex count and below 65536, and all other fields are unchanged.", "quantifier": "every pair of compatible meshes with in-range material tables", "why_tests_cant": "all meshes", "anchors": ["bf2mesh/visiblemesh.py: VisibleMesh.merge"]}
{"id": "C28", "title": "Merge overflow", "statement": "merge raises OverflowError exactly when some index of other plus self's vertex count of that material exceeds 65535; it is not transactional: vertices, indices and counts are kept but materials before the failing one are already rewritten (counterexample where self becomes inconsistent).", "quantifier": "every pair of compatible meshes", "why_tests_cant": "all meshes, all failure points", "anchors": ["bf2mesh/visiblemesh.py: VisibleMesh.merge"]}
{"id": "C29", "title": "Merging incompatible meshes is silent", "statement": "If canMerge is false, merge raises nothing, returns the NotImplementedError class and leaves the mesh unchanged.", "quantifier": "all pairs of meshes", "why_tests_cant": "all meshes", "anchors": ["bf2mesh/visiblemesh.py: VisibleMesh.merge line 448"]}
{"id": "C30", "title": "Merge leaves the other mesh alone", "statement": "merge changes only the mesh object it is called on and its own materials: other meshes, the merged one included, are unchanged whenever they share no material object with it (a shallow copy does and is changed: counterexample). Merging a mesh with itself gives the same result as merging it with a separate copy.", "quantifier": "all meshes", "why_tests_cant": "aliasing, all meshes", "anchors": ["bf2mesh/visiblemesh.py: VisibleMesh.merge"]}
{"id": "C31", "title": "Merge is associative", "statement": "merge(merge(a,b),c) and merge(a,merge(b,c)) give the same mesh data whenever both succeed; and one succeeds iff the other does.", "quantifier": "all triples of compatible meshes", "why_tests_cant": "all meshes", "anchors": ["bf2mesh/visiblemesh.py: VisibleMesh.merge"]}
{"id": "C32", "title": "Reordering geoms preserves geometry", "statement": "For every permutation order, change_geoms_order succeeds and the k-th geom of the result has, material by material, the same vertices, the same indices and the same corners as geom order[k] had before, with all other material data unchanged, and the result is packed.", "quantifier": "every in-range mesh and permutation", "why_tests_cant": "all permutations and meshes", "anchors": ["bf2mesh/visiblemesh.py: VisibleMesh.change_geoms_order"]}
{"id": "C33", "title": "Reordering with a bad order", "statement": "A wrong-length order raises AttributeError and changes nothing. An order with an out-of-range entry raises IndexError with vertices, indices and geom list kept, but material offsets may already be rewritten (counterexample).", "quantifier": "all orders", "why_tests_cant": "all orders and meshes", "anchors": ["bf2mesh/visiblemesh.py: VisibleMesh.change_geoms_order"]}
{"id": "C34", "title": "Reordering with duplicates", "statement": "change_geoms_order accepts orders that repeat a geom; because the repeated geom is the same object the first copy's material offsets are overwritten and the result does not represent the requested geoms (counterexample).", "quantifier": "existence over loadable meshes", "why_tests_cant": "aliasing", "anchors": ["bf2mesh/visiblemesh.py: VisibleMesh.change_geoms_order"]}
{"id": "C35", "title": "Reorderings compose", "statement": "On a packed mesh the identity order changes nothing, and reordering by p then by q equals reordering once by k -> p[q[k]]; in particular the inverse permutation restores the mesh.", "quantifier": "all packed meshes and permutations", "why_tests_cant": "all permutations", "anchors": ["bf2mesh/visiblemesh.py: VisibleMesh.change_geoms_order"]}
{"id": "C36", "title": "Reordering and stale counts", "statement": "change_geoms_order never updates vertnum/indexnum: for a loadable mesh whose materials share or skip vertices the exported file does not load; for packed meshes the counts stay right.", "quantifier": "existence + all packed meshes", "why_tests_cant": "all meshes", "anchors": ["bf2mesh/visiblemesh.py: VisibleMesh.change_geoms_order"]}
{"id": "C37", "title": "Bounds contain all vertices", "statement": "For non-skinned version-11 meshes without NaN positions, after update_boundaries every vertex position of every material lies within the material's and the lod's min/max, each bound is 0.0 or attained by a vertex, and lod bounds are the hull of its materials' bounds.", "quantifier": "every such mesh, every vertex", "why_tests_cant": "all meshes and floats", "anchors": ["bf2mesh/visiblemesh.py: VisibleMesh.update_boundaries"]}
{"id": "C38", "title": "Bounds are erased for skinned and old meshes", "statement": "For skinned meshes and for versions other than 11, update_boundaries (hence default export) sets every lod's bounds to (0,0,0) and leaves material bounds alone; the containment expectation is false.", "quantifier": "every such mesh", "why_tests_cant": "all meshes", "anchors": ["bf2mesh/visiblemesh.py: VisibleMesh.update_boundaries"]}
{"id": "C39", "title": "Bounds always include the origin", "statement": "Bounds computed by update_boundaries always contain the origin, so they are not tight for meshes away from it (counterexample).", "quantifier": "every mesh; existence", "why_tests_cant": "all meshes", "anchors": ["bf2mesh/visiblemesh.py: VisibleMesh.update_boundaries"]}
{"id": "C40", "title": "Updating bounds is idempotent and touches only bounds", "statement": "update_boundaries changes only min/max fields; running it twice gives the same result as once; so two consecutive default exports write identical files.", "quantifier": "every mesh", "why_tests_cant": "all meshes", "anchors": ["bf2mesh/visiblemesh.py: VisibleMesh.update_boundaries, export"]}
{"id": "C41", "title": "Bounds survive saving", "statement": "For non-skinned v11 meshes without NaN positions, after a default export and reload every stored vertex lies within the stored bounds even though both were rounded to single precision.", "quantifier": "every such mesh", "why_tests_cant": "rounding over all floats", "anchors": ["bf2mesh/visiblemesh.py: VisibleMesh.export, update_boundaries", "bf2mesh/io.py: write_float, write_float3"]}
{"id": "C42", "title": "LOD centre", "statement": "get_lod_center_offset returns the componentwise midpoint of the lod's (updated) bounds; in exact arithmetic it lies between them; translating by its negative need not recentre the mesh (counterexample).", "quantifier": "every mesh and lod", "why_tests_cant": "all meshes", "anchors": ["bf2mesh/visiblemesh.py: VisibleMesh.get_lod_center_offset"]}
{"id": "C43", "title": "Equality of headers, attributes, geoms, lods and materials", "statement": "== on headers and attributes is full field equality; == on geoms compares only structure; == on materials ignores mmax (counterexample: materials that serialise differently compare equal); on loaded NaN-free objects == on lods and materials is an equivalence relation.", "quantifier": "all pairs and triples of objects", "why_tests_cant": "relational", "anchors": ["bf2mesh/visiblemesh.py: _bf2head.__eq__, _bf2mat.__eq__, _bf2geom.__eq__, _bf2lod.__eq__, _bf2rig.__eq__, _bf2bone.__eq__, _bf2vertattrib.__eq__"]}
{"id": "C44", "title": "Every edit history keeps a mesh savable", "statement": "From a consistent packed mesh whose position, normal and tangent attributes are not 4-component, after any sequence of translate, rotate, update_boundaries and get_lod_center_offset (raising or not), successful or refused merges with consistent packed meshes or with itself, and change_geoms_order by permutations, the mesh is again consistent and packed as soon as its vertex and index counts fit a C long and the vertex data has at most 2^53 numbers, and then exporting and reloading gives it back up to single rounding. Nothing is assumed about the meshes in between.", "quantifier": "all finite sequences of operations", "why_tests_cant": "unbounded histories", "anchors": ["bf2mesh/visiblemesh.py: VisibleMesh"]}
{"id": "C45", "title": "Collision mesh save/reload loses face materials", "statement": "For the deprecated ColMesh: a loaded mesh is consistent, its faces have material 0 and the file's material in m; every strict prefix of the part of the file that is used raises struct.error and anything after it is ignored; saving a consistent mesh and loading it gives it back rounded to single precision, with the material of each face moved to m and material 0; loading a file and saving it writes as many bytes as were used and (no signalling NaN) the same bytes exactly when all face materials in the file are 0 (a file that does not survive is given). The same holds through the file system, and save under a name without a slash raises FileNotFoundError.", "quantifier": "every collision mesh, every file, versions below 9, 9 and from 10", "why_tests_cant": "all files", "anchors": ["deprecated/modcolmesh.py: ColMesh.load, ColMesh.save, bf2colface._read, bf2colface._write"]}
{"id": "C46", "title": "Collision mesh merge", "statement": "ColMesh.merge succeeds exactly when other has nowhere more geoms, subgeoms or lods than self (else IndexError, possibly after merging some); it appends counts, vertices, ids, faces and tables lod by lod, shifts the faces of other (in other too) by other's vertex count instead of self's, grows both boxes to the smallest ones containing the old box and all vertices, and touches no other face. Self's triangles are kept; other's are right when both lods have the same vertex count, can be wrong otherwise (counterexample), and point to no vertex at all when they use a vertex number that self's lod does not have. The merge of two savable meshes of one version is savable when counts and vertex numbers still fit, and need not be otherwise (counterexample).", "quantifier": "all pairs of collision meshes without common faces, all heaps", "why_tests_cant": "all meshes", "anchors": ["deprecated/modcolmesh.py: bf2collod.merge, bf2colsubgeom.merge, bf2colgeom.merge, ColMesh.merge"]}
{"id": "C47", "title": "Loadable files are exactly the serialisations of consistent meshes", "statement": "A byte string with index count not 1 is accepted by the loader if and only if it is what export would write for some consistent mesh of that kind (floats as 32-bit patterns); nothing else is ever accepted.", "quantifier": "every byte string, kind and platform", "why_tests_cant": "an iff over all byte strings", "anchors": ["bf2mesh/visiblemesh.py: VisibleMesh.__load, VisibleMesh.__export", "bf2mesh/io.py"]}
{"id": "C48", "title": "File length", "statement": "The length of every loadable file is the closed-form sum of the sizes of its parts: 11 longs and 1 byte, one long per geom, 8 bytes per attribute, 4 per vertex number, 2 per index, and per lod/material the sizes given by its tables, kind and version.", "quantifier": "every loadable file", "why_tests_cant": "all files", "anchors": ["bf2mesh/visiblemesh.py: VisibleMesh.__load"]}
{"id": "C49", "title": "Save and reopen through the file system", "statement": "After a successful export() of a consistent mesh under a name whose extension asks for the mesh's kind, opening that name gives the object's mesh rounded to single precision, with that filename; opening a file (not one-index, no signalling NaN) and exporting it without updating bounds succeeds and leaves every file and the object unchanged.", "quantifier": "every mesh, name and file system", "why_tests_cant": "all names, meshes and file systems", "anchors": ["bf2mesh/visiblemesh.py: VisibleMesh.__init__, VisibleMesh.__enter__, VisibleMesh.export", "bf2mesh/mesh.py: BF2Mesh.__init__"]}
{"id": "C50", "title": "Collision meshes share faces after a merge", "statement": "After a.merge(b), merging b into a third mesh shifts b's faces again inside a: a's triangles, right before, are wrong afterwards (counterexample). Merging a lod that has faces with itself never terminates: its face list grows by one face per step without end.", "quantifier": "all lods and heaps", "why_tests_cant": "aliasing and non-termination", "anchors": ["deprecated/modcolmesh.py: bf2collod.merge"]}
{"id": "C51", "title": "Collision mesh translate", "statement": "ColMesh.translate adds the offset to every vertex and changes nothing else; in particular the stored bounds stay behind and need not contain the vertices any more (counterexample).", "quantifier": "all meshes, offsets and arithmetics", "why_tests_cant": "all meshes", "anchors": ["deprecated/modcolmesh.py: ColMesh.translate", "deprecated/modVec3.py: Vec3.__add__"]}
{"id": "C52", "title": "File layout", "statement": "A file loads (index count not 1) to a mesh exactly when it is, without gaps, the documented sequence of fields of a consistent mesh of that kind: each integer in the platform's byte order and two's complement, each float the IEEE single with that bit pattern, in file order (header, geom table, attributes, vertices, indices, the first blocks of all lods, then the materials of all lods). Export writes exactly that sequence.", "quantifier": "every byte string, mesh, kind and platform", "why_tests_cant": "an iff over all byte strings", "anchors": ["bf2mesh/visiblemesh.py: VisibleMesh.__load, VisibleMesh.__export", "bf2mesh/io.py"]}
{"id": "C53", "title": "Collision file layout", "statement": "A collision mesh file loads exactly when it begins with the documented sequence of fields of a consistent collision mesh (each integer in the platform's byte order and two's complement, shorts signed, each float the IEEE single with that pattern); the result is that mesh with each face material moved to m. Saving writes exactly that sequence, and succeeds exactly when every integer fits its field.", "quantifier": "every byte string, mesh and platform", "why_tests_cant": "an iff over all byte strings", "anchors": ["deprecated/modcolmesh.py: ColMesh.load, ColMesh.save", "deprecated/modIO.py"]}
{"id": "C54", "title": "Accuracy of translate in doubles", "statement": "For packed meshes with doubles, each moved component x becomes a number off x+d by at most 2^-53 |x+d| whenever it is finite, and it is finite when |x+d| <= 2^1023. Translating back by the negated offsets succeeds, leaves all other components unchanged and returns each moved one to within 2^-53 (|x| + (1+2^-53)|x+d|); when x and d are multiples of 2^e and |x|, |x+d| < 2^(e+53), both steps are exact.", "quantifier": "every packed mesh, offset list and component", "why_tests_cant": "rounding over all doubles", "anchors": ["bf2mesh/visiblemesh.py: VisibleMesh.translate"]}
{"id": "C55", "title": "Accuracy of rotate in doubles", "statement": "If the C library's sine and cosine of finite doubles are finite and off by at most e, and the angles are finite and at most D degrees with e + D*2^-58 <= 1/16, then on packed meshes rotate succeeds and turns every position, normal and tangent q with finite components and length at most 2^1000 into finite numbers within 9 (2(e + D*2^-58) + 6*2^-53) |q| + 2^-1069 of the exactly rotated vector.", "quantifier": "every mesh, all angles, every library with that error", "why_tests_cant": "rounding over all doubles and all angles", "anchors": ["bf2mesh/visiblemesh.py: VisibleMesh.rotate"]}
{"id": "C56", "title": "Accuracy of saving", "statement": "Every finite vertex number x with |x| <= 2^127 is reloaded from a saved file to within 2^-24 |x| + 2^-150; after translating by d, saving and reloading, the number is within (2^-24 + 2^-52) |x+d| + 2^-150 of x+d; after rotating (library cosine and sine within e, angles up to D degrees), saving and reloading, each component of an oriented attribute q is within (2^-24 + 18(2(e + D 2^-58) + 6*2^-53))|q| + 2^-149 of the exactly turned one.", "quantifier": "every consistent mesh, every vertex number", "why_tests_cant": "rounding over all doubles", "anchors": ["bf2mesh/visiblemesh.py: VisibleMesh.translate, VisibleMesh.rotate, VisibleMesh.export, VisibleMesh.__load", "bf2mesh/io.py: read_float, write_float"]}
{"id": "C57", "title": "Numbers per vertex", "statement": "vertex_size is the sum, over the attributes with flag 0, of the widths of their types (FLOAT1..4: 1..4, D3DCOLOR: 1, UNUSED: 0), and raises ValueError when one of them has another type. It does not count attributes flagged neither 0 nor 255 although translate moves them: for such a loadable file translate returns normally and drops vertices (counterexample).", "quantifier": "every mesh; existence", "why_tests_cant": "all attribute tables", "anchors": ["bf2mesh/visiblemesh.py: VisibleMesh.vertex_size", "bf2mesh/bf2types.py: D3DDECLTYPE"]}
{"id": "C58", "title": "The old loader agrees with the new one", "statement": "On every file that VisibleMesh loads (with anything appended), LoadBF2Mesh either raises UnboundLocalError (exactly when the first lod has no material; such a file is given) or returns the same mesh with only the last node matrix of each lod, attribute fields read as signed shorts and the indices in a tuple. Conversely whatever it loads (vertex number count not 1) begins with a file that VisibleMesh loads to such a mesh.", "quantifier": "every byte string, kind and platform", "why_tests_cant": "two parsers compared on all inputs", "anchors": ["deprecated/modmesh.py: LoadBF2Mesh, VisMesh.open", "bf2mesh/visiblemesh.py: VisibleMesh.__load"]}
{"id": "C59", "title": "The old saver flattens nodes", "statement": "Loading a file with the old class and saving it always succeeds and writes a file of the same length that VisibleMesh loads to the same mesh with every node matrix of a lod replaced by its last one; the bytes are the same exactly when (no signalling NaN) the nodes of each lod are alike (a file that is damaged is given). The same holds through the file system, no other file changes, and saving under a name without a slash raises FileNotFoundError.", "quantifier": "every loadable file, kind and platform", "why_tests_cant": "all files", "anchors": ["deprecated/modmesh.py: VisMesh.open, VisMesh.save"]}
{"id": "C60", "title": "Vertex objects of the old class", "statement": "When the attributes in use are declared in the order in which a vertex holds them, without gaps, get_vertices yields vertnum objects whose attributes are exactly the corresponding numbers of each vertex. Writing back what was read changes nothing but the bounds; writing any list of complete objects and reading them again gives the same objects (without unused attributes), with vertnum their number and headers, indices and materials unchanged. For attributes declared in another order, writing back what was read scrambles the vertices (counterexample).", "quantifier": "every mesh and list of vertex objects; existence", "why_tests_cant": "all meshes and object lists", "anchors": ["deprecated/modmesh.py: VisMesh.get_vertices, VisMesh.get_vertex, VisMesh.update_vertices"]}
{"id": "C61", "title": "Old translate", "statement": "On meshes whose materials tile the vertices and whose attributes are declared in order, VisMesh.translate(offset) with three or more numbers replaces each position component x by 0 + x + d and changes nothing else but bounds. It agrees with VisibleMesh.translate exactly in real arithmetic, and in doubles up to the sign of zeros (a mesh where they differ is given). Counterexamples: two offset numbers drop vertices without an error; vertices shared by two materials move twice and are duplicated; a skinned mesh raises TypeError after its vertices were replaced.", "quantifier": "every mesh, offset list and arithmetic; existence", "why_tests_cant": "all meshes; two implementations compared", "anchors": ["deprecated/modmesh.py: VisMesh.translate", "bf2mesh/visiblemesh.py: VisibleMesh.translate"]}
{"id": "C62", "title": "Old rotate", "statement": "On such meshes with FLOAT3 positions, normals and tangents VisMesh.rotate turns each of the three by roll, pitch, yaw, changes nothing else but bounds, and gives the same mesh as VisibleMesh.rotate except for bounds. Without tangents it raises AttributeError and changes nothing, where the new class rotates. With an infinite angle both raise ValueError and change nothing.", "quantifier": "every mesh, all angles and arithmetics", "why_tests_cant": "all meshes; two implementations compared", "anchors": ["deprecated/modmesh.py: VisMesh.rotate, Ryaw, Rpitch, Rroll", "bf2mesh/visiblemesh.py: VisibleMesh.rotate"]}
{"id": "C63", "title": "Old bounds", "statement": "VisMesh.update_boundaries enlarges the bounds of every lod and material to contain its positions (no NaN), no more than necessary, and changes nothing else; this also holds after translate and rotate (exactly, in real arithmetic). It never shrinks them: after translate the lod minimum can lie strictly below all vertices (counterexample).", "quantifier": "every mesh; existence", "why_tests_cant": "all meshes", "anchors": ["deprecated/modmesh.py: VisMesh.update_boundaries"]}
{"id": "C64", "title": "Old merge", "statement": "VisMesh.merge of two packed meshes with equal attributes and the same numbers of geoms, lods and materials gives each material the vertices and (shifted) indices of both, packed again, header unchanged. Whenever VisibleMesh.merge merges, the old one gives the same mesh except for bounds. Counterexamples: it merges materials with different textures silently; it accepts indices above 65535, and the result cannot be saved; with differing lods it raises IndexError after rewriting materials.", "quantifier": "every pair of meshes; existence", "why_tests_cant": "all pairs; two implementations compared", "anchors": ["deprecated/modmesh.py: VisMesh.merge", "bf2mesh/visiblemesh.py: VisibleMesh.merge"]}
{"id": "C65", "title": "Copying and ordering geoms in the old class", "statement": "copy_geom_id(i, j) inserts geom i at j, adds 1 to geomnum and changes nothing else; the result is consistent when the mesh was. For i out of range it raises IndexError but has already raised geomnum, and every later save raises IndexError. The copy is not independent: after any rename_texture the geom and its copy are equal (counterexample to independence). order_geoms_by with valid numbers makes the table exactly those geoms and changes nothing else; with an invalid number it raises IndexError and changes nothing; with fewer numbers than geoms the mesh cannot be saved any more, with more it can be saved to a file that cannot be loaded (counterexample).", "quantifier": "every mesh, all numbers and orders", "why_tests_cant": "all meshes; aliasing", "anchors": ["deprecated/modmesh.py: VisMeshTransform.copy_geom_id, VisMeshTransform.order_geoms_by"]}
{"id": "C66", "title": "Renaming a texture in the old class", "statement": "On a mesh without copied geoms, rename_texture with the numbers of an existing texture name sets exactly that name; every other name and everything else in the mesh is unchanged, and the mesh stays consistent when the length of the name fits a C long. For numbers that name no texture it raises IndexError and changes nothing.", "quantifier": "every mesh, all numbers, every name", "why_tests_cant": "all meshes", "anchors": ["deprecated/modmesh.py: VisMeshTransform.rename_texture"]}
{"id": "C67", "title": "Deleting a geom in the old class", "statement": "On a loaded or edited mesh delete_geom_id always raises and changes nothing, since the vertices are a tuple. With the arrays converted to lists, on a packed mesh and for a geom whose first lod has a material it removes exactly that geom, its vertices and its indices; the remaining materials keep their vertices and indices, counts are right, the mesh is packed again, and consistent unless one index is left. Counterexamples: a negative number gives negative vertex starts; deleting a copied geom corrupts its other copy; with only the vertices converted it raises after deleting vertices.", "quantifier": "every packed mesh and geom; existence", "why_tests_cant": "all meshes", "anchors": ["deprecated/modmesh.py: VisMeshTransform.delete_geom_id"]}
{"id": "C68", "title": "Editing a vertex in the old class", "statement": "On a loaded or edited mesh edit_vertex never changes anything. On meshes whose attributes in use are declared in order, none of them FLOAT4, it raises TypeError when there is something to write; with the vertices converted to a list it replaces exactly the given numbers of that attribute of that vertex, provided all attributes of that usage, unused ones included, have the same offset. Otherwise it also overwrites another attribute: with normals first, editing a position overwrites the normal because the terminating attribute has usage 0 and offset 0 (counterexample).", "quantifier": "every mesh, vertex, usage and list of numbers; existence", "why_tests_cant": "all meshes", "anchors": ["deprecated/modmesh.py: VisMeshTransform.edit_vertex"]}
{"id": "C69", "title": "The box_modify script ignores its numbers", "statement": "remove_vertice_id(mesh, id) deletes vertex 24 whatever id is: with 24 or fewer vertices it changes nothing; otherwise exactly vertex 24 goes, the others keep their numbers and order, vertnum falls by 1 and geoms and indices stay, so on a packed mesh the material ranges end outside the array. replace_index_id(mesh, a, b) replaces exactly the indices 24 by 14 whatever a and b are and changes nothing else.", "quantifier": "every mesh and all numbers", "why_tests_cant": "all meshes", "anchors": ["deprecated/box_modify.py: remove_vertice_id, replace_index_id"]}
{"id": "C70", "title": "Removing an attribute with box_modify", "statement": "On meshes whose attributes in use are declared in order, none of them FLOAT4, with the vertices converted to a list, remove_attribute for an attribute that is not the first of the table removes exactly that attribute: its table entry and its numbers in every vertex; all other attributes read as before, offsets, stride and counts are right and the mesh can still be saved. With the vertices in the tuple of a loaded mesh it raises TypeError and changes nothing. For the first attribute it removes the numbers but leaves the table and stride, and the mesh is inconsistent (general theorem, and an example where the terminator is removed instead).", "quantifier": "every such mesh, usage and table; existence", "why_tests_cant": "all meshes and attribute tables", "anchors": ["deprecated/box_modify.py: remove_attribute"]}
{"id": "C71", "title": "Copying a geom table with mesh_order_fix", "statement": "copy_geom_table of one packed mesh to another with the same vertex size (arrays converted to lists, vertex numbers at most 2^53) appends the geoms of the second to the first: every geom keeps its vertices and indices, counts are right, the mesh is packed, and consistent when both were and the counts fit. The geoms are shared: afterwards the second mesh's material ranges are those of the first, so it is no longer packed. On loaded meshes, whose arrays are tuples, it raises AttributeError after appending a geom (counterexample).", "quantifier": "every pair of meshes; existence", "why_tests_cant": "all pairs of meshes; aliasing", "anchors": ["deprecated/mesh_order_fix.py: copy_geom_table"]}
{"id": "C72", "title": "Equality of collision mesh parts", "statement": "Lods, subgeoms and geoms of collision meshes compare equal exactly when all stored counts, types and arrays are equal (floats as Python compares them) and corresponding faces have the same vertices and the same material as read from a file; the material that would be saved is ignored. The comparison is an equivalence on loaded geoms without NaN and never fails on loaded meshes. A loaded mesh compares equal to what saving and loading makes of it exactly when all face materials are 0. Faces made by the constructor have no material as read: comparing two such faces with the same vertices raises AttributeError (counterexample to comparing being total).", "quantifier": "all lods, geoms, files and platforms", "why_tests_cant": "all pairs of meshes", "anchors": ["deprecated/modcolmesh.py: bf2colface.__eq__, ystruct.__eq__, bf2collod.__eq__, bf2colsubgeom.__eq__, bf2colgeom.__eq__"]}
{"id": "C73", "title": "Vec3 arithmetic", "statement": "In exact arithmetic Vec3 addition, subtraction, negation, dot and division are the usual ones by component, division by a zero (component) raises ZeroDivisionError; in doubles subtraction is correctly rounded. cross is the vector product exactly when the first vector's x equals its z or the second's x and y are 0; otherwise it is not, and a vector crossed with itself can be non-zero and not perpendicular to itself (counterexample).", "quantifier": "all vectors", "why_tests_cant": "all reals and doubles", "anchors": ["deprecated/modVec3.py: Vec3", "deprecated/modmesh.py: Vec3"]}
{"id": "C74", "title": "Duplicating a collision mesh with mesh_merge", "statement": "The steps of mesh_merge.py after its leftover raise (deepcopy, translate the copy, merge, centre on the first lod) succeed exactly when there is a first lod. For a mesh whose faces are objects of their own and in range, every lod then holds its triangles, vertices and materials twice, moved by -c and by diff and then -c, with doubled counts; the original's face objects are unchanged. In exact arithmetic with a tight box the vertices of the first lod end up in a box centred at the origin; the stored box is left where it was before the final move, so it contains the vertices only if it was centred already (counterexample).", "quantifier": "every mesh, offset and arithmetic; existence", "why_tests_cant": "all meshes; aliasing", "anchors": ["deprecated/mesh_merge.py: main"]}
{"id": "C75", "title": "Equality in the old class", "statement": "The equality methods of the old mesh class compare all fields: heads and attributes are equal exactly when all fields are (an attribute also equals the tuple of its fields), materials when all fields including mmax are, lods when all fields but the unread count are and they hold the same rig objects, geoms when lodnum and lods are. Two meshes sharing no objects have equal geoms exactly when all values agree and neither has rigs; so one file without NaN loaded twice gives equal geoms exactly when no lod has rigs. For lods of non-skinned meshes with at most one node matrix, equal in the old class implies equal in the new one. Counterexamples: a skinned mesh file loaded twice gives different geoms; lods differing in an earlier node are equal in the old class only; lods differing in mmax only are equal in the new class only.", "quantifier": "all heads, attributes, materials, lods, geoms; every file; existence", "why_tests_cant": "all pairs; object identity", "anchors": ["deprecated/modmesh.py: bf2head.__eq__, vertattrib.__eq__, bf2mat.__eq__, bf2lod.__eq__, bf2geom.__eq__", "bf2mesh/visiblemesh.py: _bf2lod.__eq__"]}
{"id": "C76", "title": "Moving and turning commute with merging", "statement": "For two packed meshes with the same vertformat, translating (or rotating) both and merging gives a result exactly when merging them does, and then it is the merged mesh translated (rotated) the same way, bit for bit. merge also accepts meshes of different vertformat, and then it does not (counterexample).", "quantifier": "every pair of meshes, offset, rotation and arithmetic; existence", "why_tests_cant": "all pairs of meshes", "anchors": ["bf2mesh/visiblemesh.py: VisibleMesh.translate, VisibleMesh.rotate, VisibleMesh.merge"]}
{"id": "C77", "title": "Moving and turning commute with reordering", "statement": "On a packed mesh, translate (or rotate) followed by change_geoms_order with a permutation gives the same mesh as the two in the other order; all succeed when the translation (rotation) does.", "quantifier": "every packed mesh, permutation, offset, rotation and arithmetic", "why_tests_cant": "all meshes and permutations", "anchors": ["bf2mesh/visiblemesh.py: VisibleMesh.translate, VisibleMesh.rotate, VisibleMesh.change_geoms_order"]}
{"id": "C78", "title": "Merging commutes with reordering", "statement": "For two meshes with ranges in bounds, reordering both by the same permutation and merging gives a result exactly when merging them does, and then it is the merged mesh reordered.", "quantifier": "every pair of meshes and permutation", "why_tests_cant": "all pairs of meshes", "anchors": ["bf2mesh/visiblemesh.py: VisibleMesh.merge, VisibleMesh.change_geoms_order"]}
{"id": "C79", "title": "Turning a moved mesh", "statement": "In exact arithmetic, rotating a mesh that was translated by d is the same as rotating it and translating it by the rotated d.", "quantifier": "every mesh, offset and angles", "why_tests_cant": "all reals", "anchors": ["bf2mesh/visiblemesh.py: VisibleMesh.translate, VisibleMesh.rotate"]}
{"id": "C80", "title": "Bounds of a merged mesh", "statement": "After update_boundaries on two meshes and on the result of merging them, the bounds of every lod and every material of the result are, on each axis, the lesser of the two minima and the greater of the two maxima.", "quantifier": "every pair of non-skinned version 11 meshes without NaN positions", "why_tests_cant": "all pairs of meshes", "anchors": ["bf2mesh/visiblemesh.py: VisibleMesh.update_boundaries, VisibleMesh.merge"]}
{"id": "C81", "title": "Root object of a template file", "statement": "get_root of a readable file returns the type and name of the first declaration \"ObjectTemplate.create TYPE NAME\" with a known type, anywhere in a line, in the lines of the file (ended by LF, CR LF or CR), the name being as long as possible, and None exactly when no line has one; it never raises once the file is open. Any character but a newline counts as the dot; if it is a space the result is ('create', TYPE). Counterexamples to what the type list intends: Engine and SimpleObject are never recognised, so the repository's own evil_box.con has no root; a declaration in a comment is taken.", "quantifier": "every file; existence", "why_tests_cant": "all texts; the regular expression backtracks", "anchors": ["deprecated/bf2.py: TemplateParser.get_root"]}
{"id": "C82", "title": "Children of a template file", "statement": "get_child_list returns, line by line, the text of the line's declaration and then the declarations of the file that the line includes (its name is the longest word followed by any character and 'tweak', in the folder of the template), and fails exactly when an included file cannot be opened. loadFromCon lists the object itself among its children and raises TypeError when there is no root. Counterexamples: 'include footweak' opens a file 'footweak', 'include foo tweak' opens 'foo'.", "quantifier": "every file system and file; existence", "why_tests_cant": "all texts and file systems", "anchors": ["deprecated/bf2.py: TemplateParser.get_child_list, GameObject.loadFromCon"]}
{"id": "C83", "title": "Root of the mod", "statement": "find_mod_root returns the working directory cut after the component that follows the first component 'mods' (after 'mods' itself if it is the last), and raises ValueError exactly when no component is 'mods'. With nested directories the outermost 'mods' wins (counterexample to finding the innermost).", "quantifier": "every working directory; existence", "why_tests_cant": "all paths", "anchors": ["deprecated/bf2.py: Mod.find_mod_root"]}
{"id": "C84", "title": "Finding an object's file", "statement": "get_object_path with an absolute root never raises: it returns the full name of the first file, in the order of the walk (files of a directory before those of its subdirectories, otherwise in the order of the entries), whose extension is con or tweak and whose root object has that name, or None exactly when there is none.", "quantifier": "every directory tree, root and name", "why_tests_cant": "all directory trees", "anchors": ["deprecated/bf2.py: Mod.get_object_path"]}
{"id": "C85", "title": "Material cells", "statement": "parse_settings returns a dictionary with, for each attacker and target, the modifier of the first cell of that pair in the file, and no other entries; its attackers are exactly those of some cell. A cell is a createCell line followed directly by a damageMod line, anywhere in the text; the modifier is the longest decimal number there. Counterexamples: 1e-3 is read as 1, and a cell with a negative modifier is skipped.", "quantifier": "every file and every float conversion; existence", "why_tests_cant": "all texts; non-overlapping search", "anchors": ["deprecated/bf2.py: Materials.parse_settings"]}
{"id": "C86", "title": "The rotate script", "statement": "rotate_X prints the position turned by the first angle about the z, the y and the x axis in that order, whatever the other two angles; it fails with IndexError exactly when the position or the rotation has fewer than three items, and with ValueError exactly when there are enough and the first angle is infinite. In exact arithmetic scalar products are preserved. It is not a yaw: the script's own example (5, 0, 5) with yaw 90 is printed unchanged instead of (5, 0, -5).", "quantifier": "all positions, rotations and arithmetics; existence", "why_tests_cant": "all numbers", "anchors": ["deprecated/rotate.py: rotate_X, Rx, Ry, Rz"]}
{"id": "C87", "title": "Lightmap samples", "statement": "smp_sample.read and smp_face.read consume exactly their fields (position, rotation, face; three vertices each followed by its normal) and return their values, and raise struct.error exactly when fewer bytes are left. LoadBF2Mesh with loadSamples=True returns a mesh exactly when loading without samples does, the file name has a directory part and no name in that directory has an extension starting with .samp; then it is the same mesh. Otherwise it raises: FileNotFoundError without a directory part; NameError at the first sample file whose extension names a lod and which can be opened; IndexError or ValueError if its extension names no lod. So samples can never be loaded.", "quantifier": "all byte strings, file systems and directory listings", "why_tests_cant": "all inputs; the undefined name is only met with sample files present", "anchors": ["deprecated/modmesh.py: LoadBF2Mesh, LoadBF2Sample, smp_sample.read, smp_face.read"]}
{"id": "C88", "title": "Printed mesh data", "statement": "For every canonical mesh without four-component attributes, display_mesh_data prints for each vertex attribute a heading and one line per vertex with exactly that vertex's numbers, then one line for each entry of the index list with the first three numbers of its vertex and a blank line after each triangle; if positions are a three-component attribute at offset 0, the line of a corner shows the position of its vertex. A four-component attribute stops it with KeyError after the attributes before it. Counterexample: with normals first, the corner lines show normals. display_material_data prints the fields of the chosen material and raises IndexError after its first line exactly when there is none. The script prints the materials of geoms 17 and 18 when both exist and raises IndexError otherwise.", "quantifier": "every mesh, attribute table and choice of material; existence", "why_tests_cant": "all attribute layouts", "anchors": ["deprecated/mesh_read.py: display_mesh_data, display_material_data and the main part"]}
{"id": "C89", "title": "Mock meshes", "statement": "The attribute table of the mock mesh class lays its attributes out without gaps and its stride is their total size, for every table of known types; its vertex list has, for each vertex, the rows of all tables in order, for any tables with enough rows. Box() is a canonical mesh that the old class saves on every platform so that both loaders read back the same mesh with the static flag; its surface is closed (each edge belongs to exactly two triangles, in opposite directions) and each corner's normal is the unit vector its triangle faces. ColBox() saves and loads as itself; its two boxes are closed surfaces. Counterexamples: the stored bounds of ColBox contain no vertex of the second box, and comparing it with what was loaded raises AttributeError.", "quantifier": "all tables, formats and platforms; the two meshes", "why_tests_cant": "all tables; global property of the surface", "anchors": ["deprecated/mock_mesh.py: Box, ColBox"]}
{"id": "C90", "title": "Editing moves the surface rigidly", "statement": "For a packed mesh whose indices point at vertices of their material and whose oriented attributes have three separate components, any sequence of calls of translate, rotate, update_boundaries, get_lod_center_offset and successful reorderings (change_geoms_order with a permutation) acts, in exact arithmetic, on the triangles of the mesh as one rotation followed by one translation: positions are moved by both, other oriented attributes are turned, all other numbers are kept, and the triangles are the same up to their order. Hence the area of the surface, whether it is closed, the volume inside if it is closed, and the scalar products between the normals (tangents) at the corners and the vectors the triangles face are kept. merge gives the triangles of both meshes (when the first mesh's materials consist of whole triangles and the formats agree), so areas and volumes add up and two closed surfaces without a common edge give a closed one. Counterexample: the volume formula changes under translation when the surface is open.", "quantifier": "every such mesh and every sequence of calls; existence", "why_tests_cant": "all meshes and call sequences; reals", "anchors": ["bf2mesh/visiblemesh.py: VisibleMesh.translate, VisibleMesh.rotate, VisibleMesh.update_boundaries, VisibleMesh.get_lod_center_offset, VisibleMesh.change_geoms_order, VisibleMesh.merge"]}
{"id": "C91", "title": "Wings of a template file", "statement": "get_wings prints, for each line of the template that includes a file, in order, the first wing statement of each line of that file, and nothing else: \"ObjectTemplate.create Wing NAME\" or activeSafe with the longest name, or setWingLift / setFlapLift with a number (a decimal fraction with optional sign and integer part, otherwise digits without sign). It raises exactly when the template or an included file cannot be opened, which is exactly when get_child_list raises, after printing what the lines before asked for. Jet.loadFromCon sets type and name from get_root and prints the same; without root it raises TypeError and changes nothing; when get_wings raises, type and name are already set. Counterexamples: after a successful load the wings of the jet are None whatever was printed; negative integer lifts and wings declared in the template itself are not printed; a lift of 1e-3 is printed as 1.", "quantifier": "every file system, template and jet; existence", "why_tests_cant": "all texts and file systems; the regular expression backtracks", "anchors": ["deprecated/bf2.py: TemplateParser.get_wings, Jet.loadFromCon"]}
{"id": "C92", "title": "Rearranging is lossless", "statement": "update_boundaries, get_lod_center_offset, merge (also with itself) and change_geoms_order, however they end, put no number into a mesh that was not in it or in the mesh merged in, except zero. So every mesh made from loaded files by successful calls of these can be saved and loads back as exactly the same mesh, with no rounding, if its counts fit; merging two files into a third, or saving a file with its geoms permuted, and opening the result gives exactly the mesh that was saved. Counterexample for moving: translating a loaded mesh by 2**-30 gives a mesh that is not the one loaded back.", "quantifier": "every mesh, sequence of calls, file system and file name; existence", "why_tests_cant": "all call sequences and float patterns", "anchors": ["bf2mesh/visiblemesh.py: VisibleMesh.merge, VisibleMesh.change_geoms_order, VisibleMesh.update_boundaries, VisibleMesh.get_lod_center_offset, VisibleMesh.export"]}
{"id": "C93", "title": "Mesh objects are independent", "statement": "In a program that works on several mesh objects loaded separately, any sequence of calls of merge (of different meshes or a mesh with itself), change_geoms_order with orders that name no geom twice, translate, rotate, update_boundaries and get_lod_center_offset, whatever their outcomes, gives the same results and exceptions as if every mesh were a value of its own and each call changed only the mesh it is called on. Counterexample without the condition on orders: after change_geoms_order([0, 0]) both geoms are one object, and merging two meshes of 6 vertices gives one of 15.", "quantifier": "every number of meshes and every sequence of calls; existence", "why_tests_cant": "all call sequences; aliasing", "anchors": ["bf2mesh/visiblemesh.py: VisibleMesh.merge, VisibleMesh.change_geoms_order, VisibleMesh.translate, VisibleMesh.rotate, VisibleMesh.update_boundaries, VisibleMesh.get_lod_center_offset"]}
{"id": "C94", "title": "File handles and the with statement", "statement": "Once a mesh has been constructed, any sequence of statements about it (editing methods, failing code, export, nested with statements), however it ends, leaves no file handle open and never holds more than one at a time; and with statements around them change nothing: the same files, mesh, calls of open and close, and exceptions, which pass through. The constructor opens nothing when there is no name or the file cannot be opened. Counterexample: when loading fails, the handle that the constructor opened is not closed.", "quantifier": "every file system, name and program; existence", "why_tests_cant": "all programs and failures; handles are invisible in results", "anchors": ["bf2mesh/visiblemesh.py: VisibleMesh.__init__, VisibleMesh.__enter__, VisibleMesh.__exit__, VisibleMesh.export"]}
{"id": "C95", "title": "Exceptions", "statement": "Loading raises nothing but struct.error, TypeError, ZeroDivisionError and AttributeError, and AttributeError exactly when the file is a loadable file followed by more bytes. On a mesh that was loaded and then edited in any way, translate raises only ValueError, IndexError or UnboundLocalError; rotate only ValueError or IndexError; update_boundaries and get_lod_center_offset only ValueError, IndexError or AttributeError; merge only ValueError, IndexError, TypeError or OverflowError; change_geoms_order only these, AttributeError or ZeroDivisionError; export only struct.error, TypeError or IndexError. Each of these does occur (for the methods on a loaded mesh), apart from the OverflowError of change_geoms_order.", "quantifier": "every file, mesh, argument and arithmetic; existence", "why_tests_cant": "all inputs; absence of other exceptions", "anchors": ["bf2mesh/visiblemesh.py: VisibleMesh.__init__, VisibleMesh.translate, VisibleMesh.rotate, VisibleMesh.update_boundaries, VisibleMesh.get_lod_center_offset, VisibleMesh.merge, VisibleMesh.change_geoms_order, VisibleMesh.export"]}
{"id": "C96", "title": "Several meshes merged into one", "statement": "For meshes stored within their tables and compatible with the first, merging b1, b2, ... into m one after another succeeds unless some index of a material of b_k plus the number of vertices of that material in m and the meshes before exceeds 65535, in which case it raises OverflowError. On success each material has the vertices of all meshes one after another and draws the triangles of all of them in order, its counts are the sums, header and other fields are kept, and (with positions, whole triangles and the same format) area and volume of the surface are the sums. A mesh that cannot be merged has no effect on the rest. Merging in another order draws the same triangles, if that order succeeds as well. Counterexample: it need not succeed.", "quantifier": "every number of meshes, every mesh and order; existence", "why_tests_cant": "all lists of meshes; arithmetic limit at 65536 vertices", "anchors": ["bf2mesh/visiblemesh.py: VisibleMesh.merge, VisibleMesh.canMerge"]}
{"id": "C97", "title": "The sample meshes of the repository", "statement": "The three staticmesh and two collisionmesh files under tests/samples load where a C long has 4 bytes, with both mesh classes, and saving writes the same bytes; where it has 8 bytes the staticmesh files do not load. After any sequence of editing calls on a sample (with fitting counts) it can be saved and reloaded. In exact arithmetic, evil_box stays a closed surface of area 6 and volume 1 under any sequence of translate, rotate, update_boundaries, get_lod_center_offset and reorderings. Up to 2620 copies of evil_box can be merged into it, with n copies giving 25(n+1) vertices, 36(n+1) indices, area 6(n+1) and volume n+1; more raise OverflowError. In double arithmetic, translating a sample by multiples of one half up to 2**51 and back restores every coordinate.", "quantifier": "every sequence of calls, number of copies, offset and libm, for these files", "why_tests_cant": "all call sequences and offsets", "anchors": ["tests/samples/staticmesh", "bf2mesh/visiblemesh.py: VisibleMesh.__load, VisibleMesh.export, VisibleMesh.translate, VisibleMesh.rotate, VisibleMesh.merge", "deprecated/modcolmesh.py: ColMesh"]}
{"id": "C98", "title": "The same program gives the same meshes in both mesh classes", "statement": "Take static meshes whose vertices have positions, normals and tangents, declared in the order in which a vertex holds them, and whose lods and materials have bounds. A program of any length of translate, rotate, update_boundaries and merge calls on them that runs through with the new mesh class also runs through with the old one, and the two end with the same meshes apart from bounds: equal in exact arithmetic, and in doubles equal up to the signs of zeros, so that differences do not build up. In particular sequences of moves of the old class are rigid motions of the surface: they keep its area, its closedness, the volume inside and the angles to the normals; and merge of the old class puts surfaces together.", "quantifier": "all numbers of meshes, all meshes of this kind, all programs, all offsets and finite angles", "why_tests_cant": "a test compares the classes on one call and one mesh; programs compose calls whose inputs already differ in signs of zeros and in bounds", "anchors": ["deprecated/modmesh.py: VisMesh.translate", "deprecated/modmesh.py: VisMesh.rotate", "deprecated/modmesh.py: VisMesh.merge", "deprecated/modmesh.py: VisMesh.update_boundaries", "bf2mesh/visiblemesh.py: VisibleMesh.translate", "bf2mesh/visiblemesh.py: VisibleMesh.rotate", "bf2mesh/visiblemesh.py: VisibleMesh.merge"]}
{"id": "C99", "title": "Errors of sequences of moves in doubles", "statement": "Take a packed mesh with separate positions, normals and tangents, and a C library whose sine and cosine are within e of the exact ones. After any sequence of n translate calls (finite offsets) and rotate calls (angles up to D degrees) in double arithmetic, every finite position is within ((1+d)**n - 1)(r + w + 2**-1000) of where exact arithmetic takes it, where r is its distance from the origin, w the total length of the offsets and d = 18(2(e + D 2**-58) + 6 2**-53), provided (1+d)**n (r + w + 2**-1000) is at most 2**1000; likewise for normals and tangents, which translate leaves alone. All other numbers are unchanged. So distances between vertices, and between directions, change by no more than the sum of two such errors. The error grows linearly with n: it is at most 2nd(r + w + 2**-1000) while 2nd is at most 1. Saving and loading the result adds at most 2**-23 of r + w + error and 2**-149. In particular a hundred thousand walks around a square return within a stated distance.", "quantifier": "all meshes of this kind, all sequences of calls, all libraries with the stated accuracy", "why_tests_cant": "rounding errors add up over unboundedly many calls and depend on all values", "anchors": ["bf2mesh/visiblemesh.py: VisibleMesh.translate", "bf2mesh/visiblemesh.py: VisibleMesh.rotate", "bf2mesh/visiblemesh.py: VisibleMesh.export"]}
{"id": "C100", "title": "Loading a file while another process saves it", "statement": "A reader fetches every byte at some moment, going forward in time, and asks for the size last. If it starts after a save has truncated the file, it gets the whole new mesh when every byte had been written before it was fetched, and struct.error otherwise, never part of a mesh; a file that has another size by the time it has been read raises AttributeError; a file nobody writes loads as usual. A reader that starts before the truncation can get, without an error, every mixture of the old vertices at the beginning and the new ones after them, when only the vertices differ. Counterexample: a load that returns a mesh that is neither the old nor the new one.", "quantifier": "every file, every way of cutting the writes and the reads, every mixture; existence", "why_tests_cant": "all interleavings of reads and writes at byte granularity", "anchors": ["bf2mesh/visiblemesh.py: VisibleMesh.__init__, VisibleMesh.__load, VisibleMesh.export", "bf2mesh/io.py"]}
{"id": "C101", "title": "Several exports to the same name at the same time", "statement": "No lock is taken. When the export that opened the file last has finished: if all exports write the same bytes, the file holds those bytes; if no other export writes after that opening, the file holds the bytes of that export, whatever was half written before; otherwise the file is at least as long as what that export wrote, and each byte up to there is the byte of one of the exports at the same position. Two exports of meshes that differ only in vertices can leave every mixture of the two, and the mixture loads. A longer file saved beside a shorter one can leave the shorter one followed by the end of the longer one, which does not load (AttributeError).", "quantifier": "every number of exports, every interleaving of their opens and flushes of any size; existence", "why_tests_cant": "all interleavings; depends on buffer sizes and scheduling", "anchors": ["bf2mesh/visiblemesh.py: VisibleMesh.export"]}
{"id": "C102", "title": "Threads that move one mesh", "statement": "Any number of translate and rotate calls run in threads on one packed mesh, interleaved in any way. No call raises that would not raise alone; everything but vertices is unchanged and the number of vertex numbers stays; until a call has ended the mesh is unchanged, and afterwards each vertex is the old one moved by an ordered selection of the calls that have ended, without repetition, which ends with the same call for all vertices. Calls that do not overlap act one after the other. On every mesh two overlapping calls can lose one of them without an error, and a mesh can be left torn, as no number of calls one after the other leaves it. An export (without update of the bounds) beside such calls writes the mesh of one moment. Counterexample: beside a merge it can write, without an error, a file that does not load.", "quantifier": "every mesh, number of threads, call and schedule; existence", "why_tests_cant": "all schedules", "anchors": ["bf2mesh/visiblemesh.py: VisibleMesh.translate, VisibleMesh.rotate, VisibleMesh.__export, VisibleMesh.merge"]}
{"id": "C103", "title": "What the programs of the README do", "statement": "As printed the three programs always raise and change no file: they export to a name without a directory, which is FileNotFoundError once loading and the edit have succeeded; the first one raises AttributeError before that, under any name, for every mesh whose number of geoms is not 18, for instance the 22 geoms its comment speaks of. The order itself is a permutation of 18 geoms that does what the comment says. With a name that has a directory: the first program leaves a file that loads as the reordered mesh with new bounds, every geom with its own triangles; the second one as the moved mesh, rounded to single precision; the third one as the merged mesh, but when the two meshes do not fit together it saves the first one alone without an error. Nothing but the file and new directories above it changes. For the box of the repository and the offset of the README, 1.5 is added to the third coordinate of every vertex exactly; the merged box has 50 vertices and 72 indices.", "quantifier": "every file system, every file, every mesh that can be saved and has usable bounds, every order, offset and name; all doubles", "why_tests_cant": "the README programs are never run by the tests, and they depend on all files and names", "anchors": ["README.md", "bf2mesh/visiblemesh.py: VisibleMesh.__init__, VisibleMesh.export, VisibleMesh.change_geoms_order, VisibleMesh.translate, VisibleMesh.merge"]}
{"id": "C104", "title": "Saving a mesh whose attributes were assigned by hand", "statement": "Saving succeeds exactly when every number is in the range of its field, the bounds and matrices that are written are there, and the indices are a sequence; the stored counts (geomnum, lodnum, matnum, mapnum, vertnum, ...) need not agree with the lists. The file loads as the saved mesh (numbers rounded to single precision) exactly when the mesh is consistent, that is, all counts agree with the lists, the vertex array has the announced size and nothing is set that is not written. An inconsistent mesh never comes back. Counterexample to the expectation that a wrong count is noticed: a mesh whose only fault is geomnum saves without an error and the file loads without an error as another mesh. Assigning any other names of shaders, techniques and textures is always safe.", "quantifier": "every in-memory mesh, every platform, every renaming", "why_tests_cant": "all combinations of inconsistent attributes", "anchors": ["bf2mesh/visiblemesh.py: VisibleMesh.export, _bf2geom.export, _bf2lod.export_nodes, _bf2lod.export_materials, _bf2mat.export, _bf2rig.export", "bf2mesh/io.py"]}
{"id": "C105", "title": "Export to a full disk", "statement": "If the whole file fits, export does what it always does. If it does not fit, export raises OSError and leaves the beginning of the file, as much as fits; no other file changes; the old contents of the target are lost; what is left does not load (struct.error). The bounds in memory are already updated. The name of the mesh object is the new one when the file is not larger than the buffer of the file object, and the old one when the part that does not fit is larger than the buffer, so a later export() without a name goes to different files in the two cases. Exceptions other than OSError are those of an export with enough room, with the same effects.", "quantifier": "every amount of room, every buffer size, every sequence of writes, every file system, mesh and name", "why_tests_cant": "a full disk at every byte position", "anchors": ["bf2mesh/visiblemesh.py: VisibleMesh.export"]}
{"id": "C106", "title": "File names on Windows", "statement": "On Windows the kind of a mesh is decided by the extension, where '/' and '\\' may be exchanged freely; a name without '\\' is of the same kind on Windows and elsewhere. Counterexample for other names: 'objects\\.staticMesh' is a static mesh on Linux and of no kind on Windows. A name has no directory exactly when it has no separator and does not begin with a drive letter; exporting to such a name raises FileNotFoundError and changes nothing, as on Linux. 'c:name' has the directory 'c:', so exporting to it passes the check that fails for 'name'. Names with '/' only, without a drive and not beginning with '//', have the same directory on both systems. Export on Windows writes the same bytes.", "quantifier": "every ASCII name, every file system with the empty name absent, every mesh", "why_tests_cant": "all names; the tests run on one system", "anchors": ["bf2mesh/mesh.py: BF2Mesh.__init__", "bf2mesh/visiblemesh.py: VisibleMesh.export"]}
{"id": "C107", "title": "Bounds of a moved mesh", "statement": "Take fresh bounds, move the mesh, take fresh bounds again. After translate the new box of a lod is, on each axis and side, the old side plus the offset, stretched to the origin: it never goes beyond that, and it reaches it on a side where a vertex of the lod lies on that side of the origin. In doubles the same holds with rounded sums when no sum overflows. A lod moved away from the origin therefore keeps a bound at 0: its box does not move along. After rotate the new box lies in every ball around the origin that holds the lod's vertices, so within the distance of the furthest corner of the old box; in doubles, within the radius of such a ball plus the proved error of rotate. All these calls succeed on meshes with a three-component position inside the vertex.", "quantifier": "every mesh whose materials tile the vertices, every offset, every angles, every lod", "why_tests_cant": "all vertices, offsets and angles; the order of rounded sums", "anchors": ["bf2mesh/visiblemesh.py: VisibleMesh.translate, VisibleMesh.rotate, VisibleMesh.update_boundaries"]}
{"id": "C108", "title": "Objects made by loading a file", "statement": "A load that succeeds makes exactly the geoms, lods, vertex attributes, rigs, bones and materials that the mesh then holds, and the file has at least four bytes for each of them. A load of any file, refused or not, makes at most 2^31 objects (2^63 with 8-byte longs) for each byte. The length of the file does not bound the objects: for every n there is a file of 6 + n C longs and one byte, refused in the end with struct.error, that first makes n times 2^31 objects (2^63 with 8-byte longs), so a file of 29 bytes makes 2^31.", "quantifier": "every byte string, every mesh class, both sizes of C long, every n below the largest C long", "why_tests_cant": "all files, and a test of a hostile file runs out of memory", "anchors": ["bf2mesh/visiblemesh.py: VisibleMesh.__load, VisibleMesh.__read_geom_table, VisibleMesh.__read_vertattrib_table, _bf2geom.load, _bf2lod.load_nodes_rigs, _bf2lod.load_materials, _bf2rig.load"]}
{"id": "C109", "title": "Length of the file of an edited mesh", "statement": "Load or build a mesh that can be saved, apply any sequence of translate, rotate, update_boundaries, get_lod_center_offset, change_geoms_order and merge, and save it. The new file is exactly as long as the old one plus, for every mesh that was merged in, four bytes for each number of its vertices and two for each of its indices. Without a merge the length does not change, whether the calls succeed or raise. The file of a merged mesh is shorter than the two files together and never shorter than the first.", "quantifier": "every savable mesh, every sequence of calls with any arguments, every list of merged meshes, both sizes of C long", "why_tests_cant": "all sequences of calls", "anchors": ["bf2mesh/visiblemesh.py: VisibleMesh.export, VisibleMesh.merge, VisibleMesh.translate, VisibleMesh.rotate, VisibleMesh.change_geoms_order, VisibleMesh.update_boundaries, VisibleMesh.get_lod_center_offset"]}
{"id": "C110", "title": "Texts of headers, attributes and meshes", "statement": "str of a header is five lines with its five numbers in decimal, and two headers have the same text exactly when they are equal. str of a vertex attribute names its flag, offset, type, size and usage when the type and the usage are in the enumerations, and raises ValueError otherwise, so a mesh that was loaded without an error can hold an attribute that cannot be printed. Within one version of Python two attributes with the same text are equal; Python before 3.11 and Python from 3.12 on never print the same attribute alike. str of a mesh always raises NotImplementedError.", "quantifier": "every header, every vertex attribute, every mesh, both ways in which Python versions print enumeration members", "why_tests_cant": "all integers in all fields; pairs of objects", "anchors": ["bf2mesh/visiblemesh.py: _bf2head.__str__, _bf2vertattrib.__str__, VisibleMesh.__str__", "bf2mesh/bf2types.py: D3DDECLTYPE, D3DDECLUSAGE"]}
