# Formal model of rpoxo/bf2mesh in Coq 8.16

## 1. What is modelled and how

The library under `/repo/bf2mesh`, and of `/repo/deprecated` the collision mesh code, the old
mesh class, the configuration file parsers (bf2.py), the mock meshes (mock_mesh.py) and five scripts
(box_modify.py, mesh_order_fix.py, mesh_merge.py, mesh_read.py, rotate.py), are modelled function by function as total Gallina functions. Every
definition cites the file and lines it models.

* Exceptions are values: `res A := Ok a | Raise e`. A method that assigns to the object
  returns the object after the call *and* the exception, so partially done work is
  visible. Where the argument of a `logging` call can itself raise (formatting `None`
  with `%d`, `len` of an int), that exception is part of the model.
* Python ints are `Z`. Slices, negative indices, `range`, slice assignment, true
  division of ints (correctly rounded to binary64) and `int(float)` are defined in
  `PyBase.v` as CPython defines them.
* The size of C long (4 or 8 bytes) and the byte order are parameters (`plat`): the code
  uses native `struct` formats, so every theorem holds for all four platforms.
* The mesh model is polymorphic in the type `F` of floats. Loader and serialiser take
  the conversions between 32-bit patterns and `F`; the editing methods take a record of
  operations (`arith F`). Two instances are used: IEEE binary64 with NaN payloads
  (Flocq, `F64.v`) and Coq's real numbers (`RArith.v`). Theorems that mention neither hold for every arithmetic.
* Files live in a small POSIX-like file system (`Obj.v`).
* Where object identity matters, objects live in a store: `Heap.v` executes `merge` on a
  store of meshes and materials, `Col.v` keeps collision faces in a heap, and
  `change_geoms_order` identifies geoms by position.

### Files

| file | contents |
|------|----------|
| `PyBase.v` | exceptions, Python sequences, ranges, int division |
| `Struct.v` | `struct.pack/unpack` in native mode and `bf2mesh/io.py` |
| `Mesh.v` | classes as records, `load`, `__export` (visiblemesh.py:95-249, 597-972) |
| `Arith.v`, `F64.v`, `RArith.v` | float operations and their two instances |
| `Edit.v` | `vertex_size`, `change_geoms_order`, `translate`, `rotate`, `canMerge`, `merge`, `update_boundaries`, `get_lod_center_offset`, `__eq__` methods |
| `Obj.v` | `os.path`, file system, constructors, `__enter__`, `export` |
| `Handle.v` | calls of open and close, `__exit__`, the with statement |
| `Heap.v`, `HeapEdit.v` | the editing methods on a store of objects |
| `Col.v` | deprecated/modcolmesh.py, modIO.py, the part of modVec3.py they use |
| `Old.v`, `OldEdit.v`, `Trans.v` | loader and saver, editing methods, VisMeshTransform of deprecated/modmesh.py |
| `Scripts.v` | functions of deprecated/box_modify.py and mesh_order_fix.py |
| `ColEq.v` | equality methods of deprecated/modcolmesh.py |
| `OldEq.v` | equality methods of deprecated/modmesh.py |
| `Vec.v` | deprecated/modVec3.py |
| `Recipe.v` | deprecated/mesh_merge.py without its leftover `raise` |
| `Bf2.v`, `Bf2Wings.v` | deprecated/bf2.py, with the part of Python's `re` it uses |
| `RotScript.v` | deprecated/rotate.py |
| `Samples.v` | the lightmap sample code of deprecated/modmesh.py |
| `Display.v` | deprecated/mesh_read.py: what it prints |
| `Mock.v` | deprecated/mock_mesh.py |
| `Spec*.v` | specification vocabulary: what the statements are written in |
| `CodecBase/Raw/Param/Local/Facts.v`, `FormatFacts.v` | proofs about loading, saving and the file layout |
| `F64Facts.v`, `DivFacts.v` | proofs about floats and int division |
| `TravFacts.v`, `VertFacts.v`, `RFacts.v`, `LayoutFacts.v` | proofs about translate, rotate, packed meshes |
| `MergeFacts.v`, `ReorderFacts.v`, `HeapFacts.v`, `ProgFacts.v` | proofs about merge and reordering; programs over several objects |
| `BoundFacts.v`, `CenterFacts.v`, `RecentreFacts.v` | proofs about bounds and centres |
| `VMapFacts.v`, `CommFacts.v`, `MergeOrderFacts.v`, `MoveFacts.v`, `BoundMergeFacts.v` | laws between the editing methods |
| `SpecAcc.v`, `AccFacts.v` | accuracy of translate, rotate and saving in doubles |
| `PathFacts.v`, `FileFacts.v`, `ObjFacts.v`, `HandleFacts.v` | proofs about names, files, objects, handles |
| `ExnFacts.v`, `ExnEdit.v` | which exceptions each method can raise |
| `SpecMany.v`, `ManyFacts.v`, `ManySurface.v`, `WitnessMany.v` | several meshes merged into one |
| `SpecBoth.v`, `BothFacts.v`, `BothSurface.v` | programs over several meshes in both mesh classes |
| `SpecDrift.v`, `DriftFacts.v`, `WitnessDrift.v` | errors of sequences of moves in doubles |
| `Sample.v`, `WitnessSample.v` | the bytes of the sample files in `/repo/tests/samples` and what follows about those meshes |
| `EqFacts.v`, `HistFacts.v`, `LosslessFacts.v` | equality methods; edit histories; edits that compute no numbers |
| `ColFacts.v`, `ColFormatFacts.v`, `ColMergeFacts.v` | collision meshes |
| `SizeFacts.v` | numbers per vertex |
| `OldFacts.v`, `OldEditFacts.v`, `OldEditThms.v`, `TransFacts.v`, `DeleteFacts.v`, `EditVFacts.v`, `OldEqFacts.v` | the old mesh class |
| `ScriptFacts.v`, `CopyFacts.v` | the scripts |
| `ReFacts.v`, `Bf2Facts.v`, `Bf2Dirs.v`, `Bf2Mod.v`, `Bf2Cells.v`, `WingsFacts.v` | regular expressions and bf2.py |
| `RotScriptFacts.v` | rotate.py |
| `SamplesFacts.v` | lightmap samples |
| `SurfaceFacts.v` | the triangles of a mesh under the editing methods; area, volume and closedness |
| `DisplayFacts.v`, `MockFacts.v` | mesh_read.py, mock_mesh.py |
| `PiFacts.v` | bounds on pi, for the double `pi / 180.0` |
| `Witness*.v` | concrete meshes, files and stores: non-vacuity and counterexamples |
| `Conc.v`, `SpecConc.v`, `ConcFacts.v` | several processes that load and save one file |
| `Thread.v`, `SpecThread.v`, `ThreadFacts.v` | threads that call methods of one mesh |
| `ReadMe.v`, `SpecReadMe.v`, `ReadMeFacts.v` | the three programs of the README, with the names, the order and the offset as parameters |
| `SpecHand.v`, `HandFacts.v` | meshes whose attributes were assigned by hand: what can be saved and what comes back |
| `DiskFull.v`, `DiskFullFacts.v` | export to a full disk, with the buffer of the file object |
| `SpecMoveBound.v`, `MoveBoundFacts.v`, `MoveBoundAcc.v`, `WitnessMoveBound.v` | fresh bounds before and after translate and rotate, over the reals and in doubles |
| `SpecLoadCost.v`, `LoadCost.v`, `LoadCostFacts.v` | the number of objects that loading makes |
| `SpecEditSize.v`, `EditSizeFacts.v`, `WitnessEditSize.v` | the length of the file of an edited mesh |
| `SpecText.v`, `Text.v`, `TextFacts.v` | texts of headers, vertex attributes and meshes |
| `WinName.v`, `SpecWinName.v`, `WinFacts.v` | file names on Windows (ntpath), export over any file system |
| `Properties.v`, `Properties2.v` | the property theorems only, each with `Print Assumptions` |

### Specification style

Statements do not use the loops of the model. The main vocabulary:

* `wf p m`: counts equal list lengths, integers fit their on-disk type, optional fields
  are present exactly when the format stores them (`Spec.v`).
* `laid_out p fields bs`, `mesh_fields`: the file format as a list of typed fields and
  what bytes hold a field, independent of readers and writers (`SpecFormat.v`). Because
  of this a wrong loader with the matching wrong writer is still caught.
* `mat_verts`, `mat_index`, corners, `packed`: what vertices, indices and triangle corners
  a material owns (`SpecEdit.v`).
* `faces`, `surface`, `area`, `volume`, `closed_surface`, `rotation`: the triangles of a mesh
  and their geometry over the real numbers (`SpecSurface.v`).
* bounds as sets of positions with order relations (`SpecBounds.v`); single-precision
  rounding stated with real numbers (`SpecF.v`).

Expectations that the code violates are `…_refuted` theorems with a concrete witness,
next to the strongest true statement.

## 2. Trusted base

* Coq's kernel (8.16.1), `vm_compute` included.
* Axioms: only those of Coq's standard library for the reals, as listed by
  `Print Assumptions` (section 6): `ClassicalDedekindReals.sig_forall_dec`,
  `ClassicalDedekindReals.sig_not_dec`, `FunctionalExtensionality.functional_extensionality_dep`,
  `Classical_Prop.classic`. They come in through the real numbers, on which Flocq's
  floats are specified. No axiom is added here.
* The reading of the Python code: nothing was executed; the tie between the code and the
  model is the citation on each definition.
* `math.sin` and `math.cos` on doubles are an arbitrary parameter (`libm`): theorems about
  doubles hold for whatever they return. Only C55 (accuracy of `rotate`) assumes a bound on
  their error, as an explicit hypothesis. That they raise ValueError exactly on infinite
  arguments is modelled (`f_trig`). `math.radians` is modelled as CPython computes it, a
  multiplication by the double `pi / 180.0` (F64.v).

## 3. Not modelled, and simplifications

* Log output and `print` (except arguments that raise), `setup.py`, the tests; `__str__` is modelled for the
  classes of visiblemesh.py only (`Text.v`).
* Concurrency (`Conc.v`, `Thread.v`): a file is the sequence of its contents; renames, removal during a read
  and network file systems are left out. Threads: translate, rotate and an export without update of the
  bounds; one access to an attribute is atomic (not so in free-threaded interpreters).
* File handles are modelled for the mesh class only (`Handle.v`), without
  the garbage collector, which closes what nothing refers to.
* Memory limits: `range(n)`, lists and `struct` buffers are as large as their counts say.
  A read of a huge count from a short file is a `struct.error` here; CPython may raise
  `MemoryError` or `OverflowError` first. C108 counts the objects that a load makes.
* `D3DDECLTYPE.__len__` reads the members of the enum through `self`, which Python 3.11
  (only) refuses; the behaviour of the other versions is modelled.
* File system: ASCII names, no symlinks, no permissions, no full disk (except in `DiskFull.v`, where the
  room is in bytes, does not change during the call, and directories need none), `..` is an ordinary
  component; POSIX path rules (`WinName.v`: those of Windows in CPython 3.8 to 3.11, over any file system).
* Objects exist only after a successful load, so attributes that every load sets are not
  options. User code that assigns other types to attributes is outside the model.
* `is` comparisons of the code (`flag is USED`, `flag is UNUSED`) compare ints in CPython's
  small-int cache (0 and 255), so they are modelled as equality.
* `==` on tuples of floats: CPython's identity shortcut is not modelled. It matters only for a
  NaN object that both sides share.
* Outside `HeapEdit.v`, `change_geoms_order` with a repeated geom models the aliasing during the
  call, not the sharing afterwards; `HeapEdit.v` does, except for the lods of a repeated geom when
  `update_boundaries` fails half-way.
* `Heap.v`, `HeapEdit.v`: geoms and lods are not objects of the store.
* `lod.sample` is never set by the library and is left out.
* The old mesh class: textures, `__str__` and printing are left out, and so are the fields that a
  failing read of a sample has already set. Vertex objects are functions from usage numbers to lists.
  `sum((x, d))` is `0 + x + d` with ordinary additions; the compensated summation of Python 3.12
  and later gives the same for two finite numbers.
* `VisMeshTransform` takes, besides the mesh, which geoms of the table are one object and whether
  vertices and indices are lists. The other methods of the old class are modelled for meshes
  without shared geoms.
* Collision meshes: `__str__` and the printing are left out, and `==` is modelled for distinct
  objects (no identity shortcut); Vec3 objects are values
  (only the bounds of a lod are assigned to, and no other object refers to those).
* The scripts: the functions take the mesh and whether its arrays are lists; what the scripts do
  around them (fixed file names, printing) is left out. `copy_geom_table` is modelled with the
  sharing of geoms between the two meshes that it creates, for meshes that share none before.

* mesh_read.py: a printed line is a value of a type with one constructor per format string; the
  formatting of numbers is left out. mock_mesh.py: the float literals are symbols with an arbitrary
  value; `_create_vertattrib_table` and the vertex loop are modelled for any table. box_new.py, which
  reads an attribute that no class has, is left out.
* bf2.py: text is ASCII (so `\w` and `\d` are the ASCII classes) and decodes without error; the
  working directory is given; a directory tree lists its entries in the order in which `os.walk`
  yields them, has no symlinks and does not change during a call; a file opens and reads without
  error when it is listed; `float` of a decimal literal is a parameter. The regular expressions
  are run by a backtracking matcher (first alternative first, longest repetition first), not
  compiled from their text; `(\w)+` is `\w+`, its group is never read. What `get_wings` prints is a list of texts.

## 4. Findings about the code

The counterexamples below are theorems; the names are in section 6.

* One-index files load but can never be saved, and the attempt destroys the target (C08, C15).
* All three programs of the README fail as printed: `export('name')` without a directory raises
  `FileNotFoundError` (C14, C103); the order has 18 entries, the comment speaks of 22 geoms, which is
  `AttributeError`; the third program has a syntax error (C103).
* `VisibleMesh()` without a file raises `AttributeError` (C12).
* `export` writes the stored counts and the lists independently: a mesh with a wrong count is saved without
  an error, and the file can load without an error as another mesh (C104).
* `str` of a mesh always raises NotImplementedError, and `str` of a loaded vertex attribute can raise
  ValueError (C110).
* A lod moved away from the origin keeps a bound at 0: its box does not move along (C39, C107).
* A name with `\` can be of another kind on Windows than elsewhere; on Windows a bare name fails too, but
  `c:name` does not (C106).
* `export` assigns `filename` before the file is closed: when the disk is full, a small mesh has the new
  name although `export` raised, a large one keeps the old name (C105).
* `translate`/`rotate` silently reassign vertices when materials do not tile the array (C20);
  `rotate` drops a number per vertex for 4-component attributes (C24).
* `merge` returns the class `NotImplementedError` instead of raising it (C29), and leaves a
  half-rewritten mesh on overflow (C28).
* `change_geoms_order` accepts repeated geoms and corrupts them (C34), and never updates the
  counts (C36).
* `update_boundaries`, hence every default export, zeroes the bounds of skinned and
  non-version-11 meshes (C38) and always includes the origin (C39).
* `_bf2mat.__eq__` ignores `mmax` (C43).
* Collision meshes lose face materials on save (C45); merge shifts faces by the wrong count and
  changes the other mesh (C46, C50); translate leaves the bounds behind (C51).
* `vertex_size` does not count attributes flagged neither 0 nor 255, which `translate` moves (C57).
* The old mesh class reads a file without materials in its first lod as an error (C58) and
  replaces all nodes of a lod by the last one on save (C59).
* The old class needs attributes declared in the order of their offsets, or rewriting vertices
  scrambles them (C60). Its translate drops vertices for an offset of two numbers, moves shared
  vertices twice and fails half-way on skinned meshes (C61); its rotate needs tangents (C62); its
  bounds never shrink (C63); its merge ignores textures, overflows indices and fails half-way when
  the lods differ (C64).
* `VisMeshTransform`: copies share the geom object and a failing copy leaves a mesh that cannot be
  saved (C65); deleting geoms and editing vertices cannot work on loaded meshes, whose arrays are
  tuples (C67, C68); editing a position can overwrite the attribute at offset 0 (C68).
* `box_modify.py` always edits vertex and index 24 whatever it is told (C69) and removes the first
  attribute's numbers without its table entry (C70); `copy_geom_table` leaves the source mesh with
  the ranges of the target and cannot work on loaded meshes (C71).
* Collision faces compare by the material as read, not the one saved, and constructed faces cannot
  be compared (C72). `Vec3.cross` is not the vector product (C73). `mesh_merge.py` stops at a
  leftover `raise`; without it, the stored boxes stay behind when the mesh is centred (C74).
* The old class compares rigs by identity, so a skinned mesh never equals another load of its
  file, and compares only the last node of a lod (C75).
* After `change_geoms_order([0, 0])` the two geoms are one object, which `merge` rewrites twice (C93).
* `merge` does not compare `vertformat`, on which the offsets of attributes depend (C76).
* bf2.py: a missing comma makes the types Engine and SimpleObject unknown, so the repository's own
  sample `evil_box.con` has no root (C81) and loading it raises TypeError (C82); declarations in
  comments count, and any character stands for the dot (C81); `include footweak` opens a file (C82);
  the outermost directory `mods` wins (C83); `damageMod 1e-3` is read as 1 and negative modifiers
  are skipped (C85); `Jet.loadFromCon` sets the wings to None, and negative integer lifts are not
  seen (C91).
* `LoadBF2Mesh(..., loadSamples=True)` raises whenever there is a sample file, since the class it
  uses does not exist (C87).
* rotate.py turns by the yaw about all three axes and leaves its own example unchanged (C86).
* A failing load leaves its file handle open (C94).
* No lock and no temporary file: a load beside a save can return a mixture of two meshes (C100), two saves
  can leave a mixture or a file that does not load (C101), threads lose moves or tear the mesh, and an
  export beside a merge can write a file that does not load (C102).
* Counts are believed before the bytes are there: a file of 29 bytes makes 2^31 objects before it is refused (C108).
* Files depend on the size of C long (C10).

## 5. Property by property

What each property is about in the model, and how it is proved. Concrete counterexamples and cases (files `Witness*.v`) are
checked by computation in the kernel. Definitions cite the lines of the code beside them.

| property | modelled by | proved in | method |
|---|---|---|---|
| C01 Lossless re-export | `Mesh.v`: `load`, `export` | `CodecFacts.v` | each reader inverts its writer (induction on lists and counts); lifted to files; doubles by the facts on narrowing and widening |
| C02 Save/reload identity | `Mesh.v`: `export`, `load` | `CodecFacts.v` | each reader inverts its writer (induction on lists and counts); lifted to files; doubles by the facts on narrowing and widening |
| C03 Loaded meshes are consistent | `Mesh.v`: `load` | `CodecFacts.v` | each reader inverts its writer (induction on lists and counts); lifted to files; doubles by the facts on narrowing and widening |
| C04 Trailing data is rejected | `Mesh.v`: `load` | `CodecFacts.v` | each reader inverts its writer (induction on lists and counts); lifted to files; doubles by the facts on narrowing and widening |
| C05 Truncated files are rejected | `Mesh.v`: `load` | `CodecFacts.v` | each reader inverts its writer (induction on lists and counts); lifted to files; doubles by the facts on narrowing and widening |
| C06 Different files give different meshes | `Mesh.v`: `load` | `CodecFacts.v`, `Witness.v` | each reader inverts its writer (induction on lists and counts); lifted to files; doubles by the facts on narrowing and widening |
| C07 Re-export is stable even with signalling NaNs | `Mesh.v`: `load`, `export` | `CodecFacts.v`, `Witness.v` | each reader inverts its writer (induction on lists and counts); lifted to files; doubles by the facts on narrowing and widening |
| C08 Single-index files | `Mesh.v`: `load`, `export`; `Struct.v`: `long_bytes` | `CodecFacts.v` | each reader inverts its writer (induction on lists and counts); lifted to files; doubles by the facts on narrowing and widening |
| C09 Single-number vertex arrays are refused | `Mesh.v`: `export`, `data_num`, `load` | `CodecFacts.v` | each reader inverts its writer (induction on lists and counts); lifted to files; doubles by the facts on narrowing and widening |
| C10 Files are not portable across C long sizes | `Mesh.v`: `load` | `CodecFacts.v` | each reader inverts its writer (induction on lists and counts); lifted to files; doubles by the facts on narrowing and widening |
| C11 File kind is decided by the extension | `Obj.v`: `new_visible_mesh`, `new_bundled_mesh` | `ObjFacts.v`, `PathFacts.v` | case analysis of the calls on the file system; induction on names |
| C12 A mesh cannot be created without a file | `Obj.v`: `new_visible_mesh`, `new_bundled_mesh` | `ObjFacts.v` | case analysis of the calls on the file system |
| C13 Export under another kind's extension | `Mesh.v`: `load`, `export`; `Obj.v`: `obj`, `new_visible_mesh`, `export_obj` | `CodecFacts.v`, `WitnessObj.v` | each reader inverts its writer (induction on lists and counts); lifted to files; doubles by the facts on narrowing and widening |
| C14 Export to a bare filename fails | `Obj.v`: `export_until`, `resolve`, `lookup`, `export_obj`; `Bf2.v`: `tree`; `Mesh.v`: `export` | `ObjFacts.v` | case analysis of the calls on the file system |
| C15 Failed or interrupted export | `Obj.v`: `export_until`, `resolve`, `export_obj`, `obj`, `new_visible_mesh`, `lookup`; `Mesh.v`: `export`; `Bf2.v`: `tree`; `Struct.v`: `long_bytes` | `ObjFacts.v`, `WitnessObj.v` | case analysis of the calls on the file system |
| C16 Export frame | `Obj.v`: `export_obj`, `resolve`; `Mesh.v`: `export` | `ObjFacts.v` | case analysis of the calls on the file system |
| C17 Loading happens once | `Obj.v`: `new_visible_mesh`, `enter` | `ObjFacts.v` | case analysis of the calls on the file system |
| C18 Translate moves positions only | `Edit.v`: `translate` | `VertFacts.v` | the loop over materials is a map over vertices (induction over the tiling) |
| C19 Translate and rotate are all-or-nothing | `Edit.v`: `translate`, `rotate` | `VertFacts.v` | the loop over materials is a map over vertices (induction over the tiling) |
| C20 Translate needs a packed mesh | `Edit.v`: `translate`; `Mesh.v`: `load`, `export` | `VertFacts.v`, `WitnessEdit.v` | the loop over materials is a map over vertices (induction over the tiling) |
| C21 Translate composes | `Edit.v`: `translate`; `Mesh.v`: `load` | `RFacts.v`, `WitnessEdit.v` | the per-vertex maps compose as rotations; trigonometric identities |
| C22 Rotate touches only position, normal and tangent | `Edit.v`: `rotate`, `decltype_len` | `VertFacts.v` | the loop over materials is a map over vertices (induction over the tiling) |
| C23 Rotate is a rigid motion | `Edit.v`: `rotate` | `RFacts.v` | the per-vertex maps compose as rotations; trigonometric identities |
| C24 Rotate shrinks 4-component attributes | `Edit.v`: `rotate`; `Mesh.v`: `load` | `WitnessEdit.v`, `VertFacts.v` | the loop over materials is a map over vertices (induction over the tiling) |
| C25 Merge compatibility is an equivalence | `Edit.v`: `canMerge`; `Mesh.v`: `load` | `MergeFacts.v`, `WitnessMerge.v` | loop invariants of the insertion loop; blocks of vertices and indices are permuted |
| C26 Merge is a union of geometry | `Edit.v`: `merge` | `MergeFacts.v` | loop invariants of the insertion loop; blocks of vertices and indices are permuted |
| C27 Merge bookkeeping | `Edit.v`: `merge` | `MergeFacts.v` | loop invariants of the insertion loop; blocks of vertices and indices are permuted |
| C28 Merge overflow | `Edit.v`: `merge`; `Mesh.v`: `load` | `MergeFacts.v`, `WitnessMerge.v` | loop invariants of the insertion loop; blocks of vertices and indices are permuted |
| C29 Merging incompatible meshes is silent | `Edit.v`: `canMerge`, `merge` | `MergeFacts.v` | loop invariants of the insertion loop; blocks of vertices and indices are permuted |
| C30 Merge leaves the other mesh alone | `Heap.v`: `store`, `own`, `disjoint`, `heap_merge`, `only_changes`, `tree_of`, `mesh_at`; `Edit.v`: `merge`, `merge_self` | `HeapFacts.v`, `MergeFacts.v`, `WitnessHeap.v` | the store run simulates the run on values; loop invariants of the insertion loop; blocks of vertices and indices are permuted |
| C31 Merge is associative | `Edit.v`: `merge` | `MergeFacts.v` | loop invariants of the insertion loop; blocks of vertices and indices are permuted |
| C32 Reordering geoms preserves geometry | `Edit.v`: `change_geoms_order` | `ReorderFacts.v` | loop invariants; the new arrays are concatenations of the old blocks |
| C33 Reordering with a bad order | `Edit.v`: `change_geoms_order`; `Mesh.v`: `load` | `ReorderFacts.v`, `WitnessReorder.v` | loop invariants; the new arrays are concatenations of the old blocks |
| C34 Reordering with duplicates | `Mesh.v`: `load`; `Edit.v`: `change_geoms_order` | `WitnessReorder.v` | computation |
| C35 Reorderings compose | `Edit.v`: `change_geoms_order` | `ReorderFacts.v` | loop invariants; the new arrays are concatenations of the old blocks |
| C36 Reordering and stale counts | `Edit.v`: `change_geoms_order`; `Mesh.v`: `load`, `export` | `ReorderFacts.v`, `WitnessReorder.v` | loop invariants; the new arrays are concatenations of the old blocks |
| C37 Bounds contain all vertices | `Edit.v`: `update_boundaries` | `BoundFacts.v`, `CenterFacts.v` | loop invariant: minimum and maximum over the vertices seen so far; from the boxes; rounding is monotone |
| C38 Bounds are erased for skinned and old meshes | `Edit.v`: `update_boundaries`; `Mesh.v`: `load` | `BoundFacts.v`, `WitnessBounds.v` | loop invariant: minimum and maximum over the vertices seen so far |
| C39 Bounds always include the origin | `Edit.v`: `update_boundaries`; `Mesh.v`: `load` | `CenterFacts.v`, `WitnessBounds.v` | from the boxes; rounding is monotone |
| C40 Updating bounds is idempotent and touches only bounds | `Edit.v`: `update_boundaries`; `Obj.v`: `export_obj` | `BoundFacts.v`, `CenterFacts.v`, `ObjFacts.v` | loop invariant: minimum and maximum over the vertices seen so far; from the boxes; rounding is monotone; case analysis of the calls on the file system |
| C41 Bounds survive saving | `Edit.v`: `update_boundaries`; `Mesh.v`: `export`, `load` | `CenterFacts.v` | from the boxes; rounding is monotone |
| C42 LOD centre | `Edit.v`: `get_lod_center_offset`, `update_boundaries`, `translate`; `Mesh.v`: `load` | `CenterFacts.v`, `RecentreFacts.v`, `WitnessBounds.v` | from the boxes; rounding is monotone; positions after the move are shifted; order of the reals |
| C43 Equality of headers, attributes, geoms, lods and materials | `Edit.v`: `head_eqb`, `vertattrib_eqb`, `geom_eqb`, `mat_eq`, `lod_eq`; `Mesh.v`: `load` | `EqFacts.v`, `MergeFacts.v`, `WitnessEq.v` | structural induction over the parts; loop invariants of the insertion loop; blocks of vertices and indices are permuted |
| C44 Every edit history keeps a mesh savable | `Mesh.v`: `export`, `load` | `HistFacts.v` | induction over the edit history with a consistency invariant |
| C45 Collision mesh save/reload loses face materials | `Col.v`: `col_load`, `colmesh`, `colface`, `write_colmesh`, `col_save`, `new_colmesh`; `Bf2.v`: `tree` | `ColFacts.v`, `WitnessCol.v` | reader and writer invert each other, by induction |
| C46 Collision mesh merge | `Col.v`: `colmesh`, `col_merge`, `collod`, `colface`, `merge_collod`, `write_colmesh` | `ColMergeFacts.v`, `BoundFacts.v`, `WitnessCol.v` | loop invariants on the heap of faces; loop invariant: minimum and maximum over the vertices seen so far |
| C47 Loadable files are exactly the serialisations of consistent meshes | `Mesh.v`: `load`, `export` | `CodecFacts.v` | each reader inverts its writer (induction on lists and counts); lifted to files; doubles by the facts on narrowing and widening |
| C48 File length | `Mesh.v`: `load`; `Struct.v`: `long_bytes` | `CodecFacts.v` | each reader inverts its writer (induction on lists and counts); lifted to files; doubles by the facts on narrowing and widening |
| C49 Save and reopen through the file system | `Obj.v`: `obj`, `export_obj`, `new_visible_mesh`, `lookup`, `resolve`; `Bf2.v`: `tree`; `Mesh.v`: `load` | `ObjFacts.v` | case analysis of the calls on the file system |
| C50 Collision meshes share faces after a merge | `Col.v`: `collod`, `merge_collod`, `self_step` | `ColMergeFacts.v`, `WitnessCol.v` | loop invariants on the heap of faces |
| C51 Collision mesh translate | `Col.v`: `colmesh`, `col_translate` | `ColMergeFacts.v`, `WitnessCol.v` | loop invariants on the heap of faces |
| C52 File layout | `Mesh.v`: `load`, `export` | `FormatFacts.v` | reader and writer against the layout, by induction on the fields |
| C53 Collision file layout | `Col.v`: `col_load`, `colmesh`, `colface`, `write_colmesh` | `ColFormatFacts.v` | reader and writer against the layout, by induction on the fields |
| C54 Accuracy of translate in doubles | `Edit.v`: `translate` | `AccFacts.v` | error bounds of rounded operations added up |
| C55 Accuracy of rotate in doubles | `Edit.v`: `rotate` | `PiFacts.v` | interval bounds for PI |
| C56 Accuracy of saving | `Mesh.v`: `export`, `load`; `Edit.v`: `translate`, `rotate` | `AccFacts.v`, `PiFacts.v` | error bounds of rounded operations added up; interval bounds for PI |
| C57 Numbers per vertex | `Mesh.v`: `load`; `Edit.v`: `translate` | `SizeFacts.v`, `WitnessSize.v` | induction over the attributes |
| C58 The old loader agrees with the new one | `Mesh.v`: `load`; `Old.v`: `old_load`, `old_load_mesh`; `Obj.v`: `new_visible_mesh` | `OldFacts.v`, `WitnessOld.v` | the old reader simulates the new one, field by field |
| C59 The old saver flattens nodes | `Mesh.v`: `load`; `Old.v`: `old_save`, `old_load_mesh`, `old_save_mesh`; `Bf2.v`: `tree`; `Obj.v`: `new_visible_mesh`, `path_eqb`, `resolve` | `OldFacts.v`, `WitnessOld.v` | the old reader simulates the new one, field by field |
| C60 Vertex objects of the old class | `OldEdit.v`: `get_vertices`, `update_vertices`; `Old.v`: `old_load` | `OldEditThms.v`, `WitnessOldEdit.v` | simulation between the two classes |
| C61 Old translate | `OldEdit.v`: `old_translate`; `Edit.v`: `translate`; `Old.v`: `old_load` | `OldEditFacts.v`, `OldEditThms.v`, `WitnessOldEdit.v` | loop invariants; agreement with the new class; simulation between the two classes |
| C62 Old rotate | `OldEdit.v`: `old_rotate`; `Edit.v`: `rotate` | `OldEditThms.v`, `OldEditFacts.v`, `WitnessOldEdit.v` | simulation between the two classes; loop invariants; agreement with the new class |
| C63 Old bounds | `OldEdit.v`: `old_update_boundaries`, `old_translate`, `old_rotate`; `Old.v`: `old_load` | `OldEditThms.v`, `WitnessOldEdit.v` | simulation between the two classes |
| C64 Old merge | `OldEdit.v`: `old_merge`; `Edit.v`: `merge`; `Old.v`: `old_load`, `old_save`; `Struct.v`: `bytes` | `OldEditFacts.v`, `WitnessOldEdit.v` | loop invariants; agreement with the new class |
| C65 Copying and ordering geoms in the old class | `Trans.v`: `copy_geom_id`, `fresh`, `rename_texture`, `order_geoms_by`; `Old.v`: `old_save`, `old_load`; `Obj.v`: `path`, `of_string` | `TransFacts.v`, `WitnessTrans.v` | loop invariants |
| C66 Renaming a texture in the old class | `Obj.v`: `path`; `Trans.v`: `rename_texture`, `fresh` | `TransFacts.v` | loop invariants |
| C67 Deleting a geom in the old class | `Trans.v`: `delete_geom_id`, `fresh`, `copy_geom_id` | `DeleteFacts.v`, `WitnessTrans.v` | loop invariants |
| C68 Editing a vertex in the old class | `Trans.v`: `edit_vertex` | `EditVFacts.v`, `WitnessTrans.v` | loop invariants |
| C69 The box_modify script ignores its numbers | `Scripts.v`: `remove_vertice_id`, `replace_index_id` | `ScriptFacts.v`, `WitnessScripts.v` | composition of the theorems about the calls |
| C70 Removing an attribute with box_modify | `Scripts.v`: `remove_attribute` | `ScriptFacts.v`, `WitnessScripts.v` | composition of the theorems about the calls |
| C71 Copying a geom table with mesh_order_fix | `Scripts.v`: `copy_geom_table` | `CopyFacts.v`, `WitnessScripts.v` | loop invariants |
| C72 Equality of collision mesh parts | `ColEq.v`: `collod_eq`, `colgeom_eq`, `list_eq`, `face_eq`; `Col.v`: `col_load`, `write_colmesh`, `collod`, `colface`, `face0` | `ColEqFacts.v`, `WitnessRecipe.v` | structural induction |
| C73 Vec3 arithmetic | `Col.v`: `vec_add`; `Vec.v`: `vec_sub`, `vec_neg`, `vec_dot`, `vec_cross`, `vec_divn`, `vec_divv`; `Mesh.v`: `vec3` | `VecFacts.v`, `WitnessRecipe.v` | algebra |
| C74 Duplicating a collision mesh with mesh_merge | `Col.v`: `colmesh`, `col_translate`; `Recipe.v`: `duplicate`; `Mock.v`: `box` | `RecipeFacts.v`, `WitnessRecipe.v` | composition of the calls |
| C75 Equality in the old class | `OldEq.v`: `old_head_eqb`, `attrib_tuple_eqb`, `attrib_attrib_eqb`, `old_mat_eqb`, `old_lod_eqb`, `old_geom_eqb`; `Edit.v`: `list_eqb`, `lod_eq`; `Old.v`: `old_load`; `Mesh.v`: `load` | `OldEqFacts.v`, `WitnessOldEq.v` | structural induction |
| C76 Moving and turning commute with merging | `Edit.v`: `translate`, `merge`, `rotate`; `Mesh.v`: `load` | `CommFacts.v`, `WitnessComm.v` | both orders give the same map over the blocks |
| C77 Moving and turning commute with reordering | `Edit.v`: `translate`, `change_geoms_order`, `rotate` | `CommFacts.v` | both orders give the same map over the blocks |
| C78 Merging commutes with reordering | `Edit.v`: `change_geoms_order`, `merge` | `MergeOrderFacts.v` | both orders give the same blocks |
| C79 Turning a moved mesh | `Edit.v`: `translate`, `rotate` | `MoveFacts.v` | linearity of rotations |
| C80 Bounds of a merged mesh | `Edit.v`: `merge`, `update_boundaries` | `BoundMergeFacts.v`, `BoundFacts.v` | box of a union; loop invariant: minimum and maximum over the vertices seen so far |
| C81 Root object of a template file | `Obj.v`: `path`, `open_rb`; `Bf2.v`: `get_root`; `Bf2Wings.v`: `jet` | `Bf2Dirs.v`, `WitnessBf2.v` | induction over lines and directories |
| C82 Children of a template file | `Obj.v`: `path`, `open_rb`, `dirname`; `Bf2.v`: `get_child_list`, `load_from_con`, `get_root` | `Bf2Dirs.v`, `WitnessBf2.v` | induction over lines and directories |
| C83 Root of the mod | `Bf2.v`: `find_mod_root` | `Bf2Mod.v`, `WitnessBf2.v` | induction over the path |
| C84 Finding an object's file | `Bf2.v`: `get_object_path` | `Bf2Mod.v` | induction over the path |
| C85 Material cells | `Obj.v`: `path`, `open_rb`; `Bf2.v`: `parse_settings` | `Bf2Cells.v`, `WitnessBf2.v` | loop invariants |
| C86 The rotate script | `RotScript.v`: `rotate_X` | `RotScriptFacts.v` | composition of the calls |
| C87 Lightmap samples | `Samples.v`: `read_sample`, `load_with_samples`; `Col.v`: `read_face`; `Old.v`: `old_load_mesh`; `PyBase.v`: `bind`; `Obj.v`: `open_rb`, `dirname`; `Bf2.v`: `path_join` | `SamplesFacts.v` | reader against the layout |
| C88 Printed mesh data | `Display.v`: `display_mesh_data`, `display_material_data`, `mesh_read_main`; `Old.v`: `old_load`; `Heap.v`: `mat_at` | `DisplayFacts.v`, `WitnessDisplay.v` | induction over the printed lists |
| C89 Mock meshes | `Mock.v`: `mock_attribs`, `mock_stride`, `mock_vertices`, `box`, `colbox`; `Bf2.v`: `lit`; `Old.v`: `old_save`, `old_load`; `Mesh.v`: `load`; `Col.v`: `write_colmesh`, `col_load`; `ColEq.v`: `colgeom_eq` | `MockFacts.v` | computation of the constructors for all parameters |
| C90 Editing moves the surface rigidly | `Edit.v`: `merge`, `translate` | `SurfaceFacts.v`, `WitnessSurface.v` | the triangles are mapped or permuted; real algebra and induction over triangles |
| C91 Wings of a template file | `Obj.v`: `path`, `open_rb`, `dirname`; `Bf2Wings.v`: `get_wings`, `jet_load`; `Bf2.v`: `get_child_list`, `get_root`, `lines`; `Heap.v`: `own` | `WingsFacts.v`, `WitnessWings.v` | induction over the template |
| C92 Rearranging is lossless | `Mesh.v`: `load`, `export`; `Obj.v`: `export_obj`, `new_visible_mesh`; `Edit.v`: `merge`, `update_boundaries`, `change_geoms_order`, `translate` | `LosslessFacts.v`, `WitnessLossless.v` | every number of the result is one of the input |
| C93 Mesh objects are independent | `HeapEdit.v`: `run`; `Heap.v`: `tree_of` | `ProgFacts.v`, `WitnessProg.v` | simulation, by induction over the program |
| C94 File handles and the with statement | `Obj.v`: `new_visible_mesh`, `export_obj`, `open_rb`, `kind_of_name`; `Handle.v`: `new_h`, `export_h`, `exec`; `Mesh.v`: `load` | `HandleFacts.v`, `WitnessHandle.v` | induction over the program |
| C95 Exceptions | `Mesh.v`: `load`, `export`; `Edit.v`: `translate`, `rotate`, `update_boundaries`, `merge`, `merge_self`, `change_geoms_order`, `get_lod_center_offset` | `ExnFacts.v`, `ExnEdit.v`, `WitnessExn.v` | case analysis of every raising step |
| C96 Several meshes merged into one | `Col.v`: `merge_each`; `Edit.v`: `canMerge` | `ManyFacts.v`, `WitnessMany.v`, `ManySurface.v` | induction over the list of meshes |
| C97 The sample meshes of the repository | `Mesh.v`: `load`, `export`; `Old.v`: `old_load`; `Col.v`: `merge_each`, `col_load`, `write_colmesh`; `Edit.v`: `translate` | `WitnessSample.v`, `HistFacts.v` | kernel computation on the files of the repository; induction over the edit history with a consistency invariant |
| C98 The same program gives the same meshes in both mesh classes | `OldEdit.v`: `old_translate`, `old_rotate`, `old_update_boundaries`, `old_merge`; `Edit.v`: `merge` | `BothFacts.v`, `BothSurface.v` | simulation, by induction over the program; from the simulation and the surface theorems |
| C99 Errors of sequences of moves in doubles | `Mesh.v`: `export`, `load` | `DriftFacts.v`, `WitnessDrift.v` | induction over the sequence of moves with an error invariant |
| C100 Loading a file while another process saves it | `Mesh.v`: `load`, `export`; `Conc.v`: `load_during` | `ConcFacts.v`, `WitnessConc.v` | induction over the schedule |
| C101 Several exports to the same name at the same time | `Conc.v`: `save_run`; `Mesh.v`: `export`, `load` | `ConcFacts.v`, `WitnessConc.v` | induction over the schedule |
| C102 Threads that move one mesh | `Thread.v`: `threads_run`, `export_during`; `Mesh.v`: `export`, `load`; `Edit.v`: `merge` | `ThreadFacts.v`, `WitnessConc.v` | induction over the interleaving |
| C103 What the programs of the README do | `HeapEdit.v`: `call`; `Obj.v`: `new_visible_mesh`; `Edit.v`: `change_geoms_order`, `update_boundaries`, `translate`, `merge`, `canMerge` | `ReadMeFacts.v`, `WitnessReadMe.v` | composition of the theorems about the calls |
| C104 Saving a mesh whose attributes were assigned by hand | `Mesh.v`: `export`, `load` | `HandFacts.v`, `WitnessHand.v` | each writer step determines its bytes; the layout is a prefix code |
| C105 Export to a full disk | `Obj.v`: `resolve`, `export_obj`, `new_visible_mesh`; `DiskFull.v`: `export_room` | `DiskFullFacts.v` | induction over the written pieces |
| C106 File names on Windows | `WinName.v`: `nt_kind_of_name`, `nt_dirname`, `export_on`; `Obj.v`: `kind_of_name`, `dirname`, `export_obj`; `Mesh.v`: `export` | `WinFacts.v` | induction on names |
| C107 Bounds of a moved mesh | `Edit.v`: `update_boundaries`, `translate`, `rotate` | `MoveBoundFacts.v`, `MoveBoundAcc.v` | boxes of the shifted or turned positions; rounded addition is monotone; the accuracy bound of rotate carried through the fresh box |
| C108 Objects made by loading a file | `LoadCost.v`: `load_counted`; `Mesh.v`: `load`; `Struct.v`: `long_bytes` | `LoadCostFacts.v` | a counting loader that erases to the loader; rules for cost and bytes read per step |
| C109 Length of the file of an edited mesh | `Mesh.v`: `export`; `Edit.v`: `merge` | `EditSizeFacts.v` | the file size splits into tables and arrays; each call keeps the tables; induction on the calls |
| C110 Texts of headers, attributes and meshes | `Text.v`: `head_text`, `attrib_text`, `mesh_text`; `Mesh.v`: `head`, `load` | `TextFacts.v`, `WitnessExn.v` | numerals contain no separator, so a text splits in one way only |

## 6. Theorems and what they assume

`none`: closed under the global context. `R2`: `sig_forall_dec`,
`functional_extensionality_dep`. `R3`: `sig_forall_dec`, `sig_not_dec`,
`functional_extensionality_dep`. `R4`: those and `Classical_Prop.classic`.

| property | theorem | assumptions |
|---|---|---|
| C01 | `C01_lossless_reexport` | R4 |
| C02 | `C02_save_reload` | R4 |
| C02 | `C02_save_reload_exact` | R4 |
| C03 | `C03_loaded_consistent` | R4 |
| C04 | `C04_trailing_data_rejected` | R4 |
| C05 | `C05_truncated_file_rejected` | R4 |
| C06 | `C06_load_injective` | R4 |
| C06 | `C06_without_nan_hypothesis_refuted` | R4 |
| C07 | `C07_byte_exactness_refuted` | R4 |
| C07 | `C07_reexport_stable` | R4 |
| C08 | `C08_single_index` | R4 |
| C08 | `C08_single_index_never_exports` | R4 |
| C09 | `C09_never_one_vertex_number` | R4 |
| C09 | `C09_single_vertex_number_rejected` | R4 |
| C10 | `C10_not_portable` | R4 |
| C11 | `C11_flags_ignored` | none |
| C11 | `C11_kind_from_extension` | none |
| C11 | `C11_one_extension` | none |
| C12 | `C12_no_file` | none |
| C13 | `C13_skinned_extension_loses` | R4 |
| C13 | `C13_static_bundled_extension` | R4 |
| C13 | `C13_wrong_extension` | R4 |
| C14 | `C14_bare_name` | none |
| C14 | `C14_directory_created` | none |
| C15 | `C15_atomic_refuted` | R4 |
| C15 | `C15_failed_export_object` | none |
| C15 | `C15_prefix_written` | none |
| C15 | `C15_single_index_destroyed` | R4 |
| C16 | `C16_export_frame` | none |
| C17 | `C17_loaded_once` | none |
| C18 | `C18_translate` | R4 |
| C18 | `C18_translate_succeeds` | R4 |
| C19 | `C19_all_or_nothing` | none |
| C20 | `C20_own_vertices_refuted` | R4 |
| C20 | `C20_still_loadable_refuted` | R4 |
| C20 | `C20_translate_unpacked` | R4 |
| C21 | `C21_translate_compose` | R4 |
| C21 | `C21_translate_undo` | R4 |
| C21 | `C21_undo_in_doubles_refuted` | R4 |
| C22 | `C22_infinite_angle` | R4 |
| C22 | `C22_rotate` | R4 |
| C23 | `C23_rotate_axis_add` | R4 |
| C23 | `C23_rotate_axis_undo` | R4 |
| C23 | `C23_rotate_rigid` | R4 |
| C23 | `C23_rotate_undo` | R4 |
| C23 | `C23_rotate_zero` | R4 |
| C24 | `C24_rotate_narrow` | R4 |
| C24 | `C24_rotate_shrinks` | R4 |
| C25 | `C25_compatible` | none |
| C25 | `C25_equivalence` | none |
| C25 | `C25_kinds_refuted` | R4 |
| C25 | `C25_total` | none |
| C25 | `C25_unknown_type_refuted` | R4 |
| C26 | `C26_union` | none |
| C27 | `C27_sums` | none |
| C27 | `C27_tables` | none |
| C28 | `C28_atomic_refuted` | R4 |
| C28 | `C28_overflow` | none |
| C29 | `C29_incompatible` | none |
| C30 | `C30_bystanders` | none |
| C30 | `C30_itself` | none |
| C30 | `C30_other_alone` | none |
| C30 | `C30_self_merge` | none |
| C30 | `C30_shared_refuted` | none |
| C30 | `C30_stores` | none |
| C31 | `C31_associative` | none |
| C32 | `C32_content` | R4 |
| C33 | `C33_atomic_refuted` | R4 |
| C33 | `C33_error_keeps` | none |
| C33 | `C33_outcome` | R4 |
| C33 | `C33_wrong_length` | none |
| C34 | `C34_duplicates` | R4 |
| C35 | `C35_compose` | R4 |
| C35 | `C35_identity` | R4 |
| C35 | `C35_inverse` | R4 |
| C36 | `C36_counts` | none |
| C36 | `C36_packed_lengths` | R4 |
| C36 | `C36_unloadable_refuted` | R4 |
| C37 | `C37_bounds` | R4 |
| C37 | `C37_bounds_exact` | R4 |
| C37 | `C37_succeeds` | R4 |
| C38 | `C38_contain_refuted` | R4 |
| C38 | `C38_erased` | none |
| C39 | `C39_origin_inside` | R4 |
| C39 | `C39_origin_inside_exact` | R3 |
| C39 | `C39_tight_refuted` | R4 |
| C40 | `C40_frame` | none |
| C40 | `C40_idempotent` | none |
| C40 | `C40_second_export` | none |
| C41 | `C41_bounds_survive` | R4 |
| C42 | `C42_bad_number` | none |
| C42 | `C42_center` | none |
| C42 | `C42_double_center` | R4 |
| C42 | `C42_exact_center` | R3 |
| C42 | `C42_recentre` | R4 |
| C42 | `C42_recentre_refuted` | R4 |
| C42 | `C42_succeeds` | none |
| C43 | `C43_equal_parts_refuted` | R4 |
| C43 | `C43_header_attribute_geom` | none |
| C43 | `C43_lod` | none |
| C43 | `C43_lod_equivalence` | R4 |
| C43 | `C43_lod_no_error` | none |
| C43 | `C43_material` | none |
| C43 | `C43_material_equivalence` | R4 |
| C43 | `C43_nan_refuted` | R4 |
| C43 | `C43_pivot_error` | none |
| C43 | `C43_zero_sign_refuted` | R4 |
| C44 | `C44_history` | R4 |
| C44 | `C44_history_export` | R4 |
| C45 | `C45_bare_name` | none |
| C45 | `C45_files` | R4 |
| C45 | `C45_identity_refuted` | R4 |
| C45 | `C45_load` | none |
| C45 | `C45_material_refuted` | R4 |
| C45 | `C45_open_save` | R4 |
| C45 | `C45_resave` | R4 |
| C45 | `C45_save_reload` | R4 |
| C45 | `C45_truncated` | none |
| C46 | `C46_atomic_refuted` | none |
| C46 | `C46_bounds` | R4 |
| C46 | `C46_dangling` | none |
| C46 | `C46_merge` | none |
| C46 | `C46_other_refuted` | none |
| C46 | `C46_savable` | none |
| C46 | `C46_savable_refuted` | none |
| C46 | `C46_saved_faces` | none |
| C46 | `C46_triangles` | none |
| C46 | `C46_triangles_refuted` | none |
| C47 | `C47_loadable_files_are_serialisations` | R4 |
| C48 | `C48_file_length` | R4 |
| C49 | `C49_open_save` | R4 |
| C49 | `C49_save_reopen` | R4 |
| C50 | `C50_independence_refuted` | none |
| C50 | `C50_merged_twice` | none |
| C50 | `C50_self_merge` | none |
| C51 | `C51_bounds_refuted` | R4 |
| C51 | `C51_translate` | none |
| C52 | `C52_export_layout` | R4 |
| C52 | `C52_load_layout` | R4 |
| C52 | `C52_single_value` | R4 |
| C53 | `C53_load_layout` | R4 |
| C53 | `C53_save_layout` | R4 |
| C54 | `C54_grid_exact` | R4 |
| C54 | `C54_translate_accuracy` | R4 |
| C54 | `C54_undo_accuracy` | R4 |
| C55 | `C55_rotate_accuracy` | R4 |
| C56 | `C56_rotate_save_accuracy` | R4 |
| C56 | `C56_save_accuracy` | R4 |
| C56 | `C56_translate_save_accuracy` | R4 |
| C57 | `C57_all_in_use_refuted` | R4 |
| C57 | `C57_size` | none |
| C57 | `C57_unknown_type` | none |
| C58 | `C58_agrees` | none |
| C58 | `C58_files` | R4 |
| C58 | `C58_nothing_else` | none |
| C58 | `C58_same_files_refuted` | R4 |
| C59 | `C59_bare_name` | none |
| C59 | `C59_lossless_refuted` | R4 |
| C59 | `C59_open_save` | R4 |
| C59 | `C59_resave` | R4 |
| C59 | `C59_same_bytes` | R4 |
| C60 | `C60_any_order_refuted` | R4 |
| C60 | `C60_get` | R4 |
| C60 | `C60_read_write` | R4 |
| C60 | `C60_read_write_ok` | R4 |
| C60 | `C60_write_read` | R4 |
| C61 | `C61_agrees_doubles` | R4 |
| C61 | `C61_agrees_exactly` | R4 |
| C61 | `C61_moves` | R4 |
| C61 | `C61_same_zeros_refuted` | R4 |
| C61 | `C61_shared_vertices_refuted` | R4 |
| C61 | `C61_short_offset_refuted` | R4 |
| C61 | `C61_skinned_refuted` | R4 |
| C62 | `C62_agrees` | R4 |
| C62 | `C62_infinite_angle` | R4 |
| C62 | `C62_no_tangent_refuted` | R4 |
| C62 | `C62_turns` | R4 |
| C63 | `C63_after_rotate` | R4 |
| C63 | `C63_after_translate` | R4 |
| C63 | `C63_enlarges` | R4 |
| C63 | `C63_enlarges_exact` | R4 |
| C63 | `C63_tight_refuted` | R4 |
| C64 | `C64_agrees` | R4 |
| C64 | `C64_all_or_nothing_refuted` | R4 |
| C64 | `C64_joins` | R4 |
| C64 | `C64_savable_refuted` | R4 |
| C64 | `C64_textures_refuted` | R4 |
| C65 | `C65_copy` | none |
| C65 | `C65_copy_range` | none |
| C65 | `C65_copy_shared` | none |
| C65 | `C65_independent_refuted` | none |
| C65 | `C65_order` | none |
| C65 | `C65_order_long_refuted` | R4 |
| C65 | `C65_order_range` | none |
| C65 | `C65_order_short` | none |
| C66 | `C66_range` | none |
| C66 | `C66_renames` | none |
| C66 | `C66_savable` | none |
| C67 | `C67_all_or_nothing_refuted` | none |
| C67 | `C67_copied_refuted` | none |
| C67 | `C67_deletes` | R4 |
| C67 | `C67_negative_refuted` | none |
| C67 | `C67_savable` | R4 |
| C67 | `C67_tuple_refused` | none |
| C68 | `C68_attribute_refuted` | none |
| C68 | `C68_edits` | R4 |
| C68 | `C68_tuple_raises` | R4 |
| C68 | `C68_tuple_refused` | none |
| C69 | `C69_few_vertices` | R4 |
| C69 | `C69_given_index_refuted` | none |
| C69 | `C69_given_vertex_refuted` | none |
| C69 | `C69_ranges_break` | R4 |
| C69 | `C69_removes_24` | R4 |
| C69 | `C69_replaces_24` | none |
| C70 | `C70_first_refuted` | R4 |
| C70 | `C70_positions_refuted` | none |
| C70 | `C70_removes` | R4 |
| C70 | `C70_tuple_refused` | R4 |
| C71 | `C71_copies` | R4 |
| C71 | `C71_loaded_refuted` | none |
| C72 | `C72_constructed_refuted` | none |
| C72 | `C72_equivalence` | R4 |
| C72 | `C72_fails` | none |
| C72 | `C72_geoms` | none |
| C72 | `C72_loaded` | none |
| C72 | `C72_lods` | none |
| C72 | `C72_saved` | R4 |
| C73 | `C73_cross` | R3 |
| C73 | `C73_cross_double_refuted` | R4 |
| C73 | `C73_cross_refuted` | R3 |
| C73 | `C73_division` | R3 |
| C73 | `C73_division_by_vector` | R3 |
| C73 | `C73_dot` | R3 |
| C73 | `C73_subtraction_double` | R4 |
| C73 | `C73_sums` | R3 |
| C74 | `C74_bounds_refuted` | R3 |
| C74 | `C74_centred` | R3 |
| C74 | `C74_duplicate` | R2 |
| C74 | `C74_fails` | none |
| C75 | `C75_attrib` | none |
| C75 | `C75_geom` | none |
| C75 | `C75_head` | none |
| C75 | `C75_lod` | none |
| C75 | `C75_material` | none |
| C75 | `C75_mmax_refuted` | R4 |
| C75 | `C75_nodes_refuted` | R4 |
| C75 | `C75_objects` | none |
| C75 | `C75_same_file` | R4 |
| C75 | `C75_skinned_refuted` | R4 |
| C75 | `C75_then_new` | none |
| C75 | `C75_two_meshes` | none |
| C76 | `C76_formats_refuted` | R4 |
| C76 | `C76_rotate` | R4 |
| C76 | `C76_translate` | R4 |
| C77 | `C77_rotate` | R4 |
| C77 | `C77_translate` | R4 |
| C78 | `C78_merge_order` | R4 |
| C79 | `C79_turn_moved` | R4 |
| C80 | `C80_double` | R4 |
| C80 | `C80_exact` | R4 |
| C81 | `C81_comment_refuted` | none |
| C81 | `C81_lines` | none |
| C81 | `C81_root` | none |
| C81 | `C81_total` | none |
| C81 | `C81_types_refuted` | none |
| C82 | `C82_children` | none |
| C82 | `C82_include_refuted` | none |
| C82 | `C82_no_root` | none |
| C82 | `C82_own` | none |
| C83 | `C83_comps` | none |
| C83 | `C83_nested_refuted` | none |
| C83 | `C83_raises` | none |
| C83 | `C83_root` | none |
| C84 | `C84_path` | none |
| C85 | `C85_cells` | none |
| C85 | `C85_notation_refuted` | none |
| C85 | `C85_unique` | none |
| C86 | `C86_printed` | none |
| C86 | `C86_raises` | none |
| C86 | `C86_rigid` | R3 |
| C86 | `C86_yaw_refuted` | R3 |
| C87 | `C87_face` | none |
| C87 | `C87_loads` | none |
| C87 | `C87_no_directory_refuted` | none |
| C87 | `C87_sample` | none |
| C87 | `C87_samples_refuted` | none |
| C87 | `C87_short` | none |
| C88 | `C88_any_layout_refuted` | R4 |
| C88 | `C88_corners` | R4 |
| C88 | `C88_float4_stops` | R4 |
| C88 | `C88_material` | none |
| C88 | `C88_mesh` | R4 |
| C88 | `C88_script` | none |
| C89 | `C89_box` | none |
| C89 | `C89_box_saved` | R4 |
| C89 | `C89_box_surface` | R2 |
| C89 | `C89_colbox_bounds_refuted` | R3 |
| C89 | `C89_colbox_compare` | none |
| C89 | `C89_colbox_saved` | R4 |
| C89 | `C89_colbox_surface` | R2 |
| C89 | `C89_literals` | R4 |
| C89 | `C89_table` | none |
| C89 | `C89_vertices` | none |
| C90 | `C90_measures` | R4 |
| C90 | `C90_merge` | R3 |
| C90 | `C90_open_refuted` | R4 |
| C90 | `C90_rigid` | R4 |
| C90 | `C90_triangles` | R4 |
| C91 | `C91_jet` | none |
| C91 | `C91_negative_refuted` | none |
| C91 | `C91_own_refuted` | none |
| C91 | `C91_printed` | none |
| C91 | `C91_raises` | none |
| C91 | `C91_unique` | none |
| C91 | `C91_unopened` | none |
| C91 | `C91_wings_refuted` | none |
| C92 | `C92_loaded` | R4 |
| C92 | `C92_lossless` | R4 |
| C92 | `C92_merged_files` | R4 |
| C92 | `C92_numbers` | none |
| C92 | `C92_reopen` | R4 |
| C92 | `C92_reordered_file` | R4 |
| C92 | `C92_translate_refuted` | R4 |
| C93 | `C93_programs` | none |
| C93 | `C93_repeated_refuted` | none |
| C93 | `C93_start` | none |
| C94 | `C94_constructor` | none |
| C94 | `C94_export` | none |
| C94 | `C94_failed_load_refuted` | R4 |
| C94 | `C94_failed_open` | none |
| C94 | `C94_tidy` | none |
| C94 | `C94_with` | none |
| C95 | `C95_attained` | R4 |
| C95 | `C95_edits` | R4 |
| C95 | `C95_export` | none |
| C95 | `C95_kept` | none |
| C95 | `C95_load` | R4 |
| C95 | `C95_loaded` | none |
| C95 | `C95_trailing` | R4 |
| C96 | `C96_copies` | none |
| C96 | `C96_fit` | none |
| C96 | `C96_order` | none |
| C96 | `C96_order_refuted` | none |
| C96 | `C96_passes_over` | none |
| C96 | `C96_result` | none |
| C96 | `C96_surface` | R3 |
| C97 | `C97_col` | R4 |
| C97 | `C97_copies` | none |
| C97 | `C97_copies_surface` | R4 |
| C97 | `C97_history` | R4 |
| C97 | `C97_loads` | R4 |
| C97 | `C97_long8` | R4 |
| C97 | `C97_moves` | R4 |
| C97 | `C97_translate` | R4 |
| C98 | `C98_doubles` | R4 |
| C98 | `C98_exact` | R4 |
| C98 | `C98_merge` | R4 |
| C98 | `C98_succeeds` | R4 |
| C98 | `C98_surface` | R4 |
| C99 | `C99_distances` | R4 |
| C99 | `C99_drift` | R4 |
| C99 | `C99_example` | R4 |
| C99 | `C99_linear` | R2 |
| C99 | `C99_saved` | R4 |
| C100 | `C100_all_or_error` | none |
| C100 | `C100_mixture` | R4 |
| C100 | `C100_old_or_new_refuted` | R4 |
| C100 | `C100_read_during_save` | none |
| C100 | `C100_resized` | none |
| C100 | `C100_still` | none |
| C101 | `C101_alone` | none |
| C101 | `C101_bytes` | none |
| C101 | `C101_garbage` | none |
| C101 | `C101_loads_refuted` | R4 |
| C101 | `C101_mixture` | R4 |
| C101 | `C101_one_of_them_refuted` | R4 |
| C101 | `C101_same_bytes` | none |
| C102 | `C102_export_merge_refuted` | R4 |
| C102 | `C102_export` | none |
| C102 | `C102_lost_update` | none |
| C102 | `C102_serial` | none |
| C102 | `C102_serializable_refuted` | R4 |
| C102 | `C102_threads` | R4 |
| C102 | `C102_translate` | R4 |
| C103 | `C103_as_printed` | none |
| C103 | `C103_bare_names` | none |
| C103 | `C103_box_merged` | R4 |
| C103 | `C103_box_offset` | R4 |
| C103 | `C103_merge_ignored` | none |
| C103 | `C103_merge` | R4 |
| C103 | `C103_offset` | R4 |
| C103 | `C103_order_list` | none |
| C103 | `C103_order_mismatch` | none |
| C103 | `C103_order` | R4 |
| C104 | `C104_inconsistent_lost` | R4 |
| C104 | `C104_reload` | R4 |
| C104 | `C104_rename` | R4 |
| C104 | `C104_writable` | none |
| C104 | `C104_wrong_count_refuted` | R4 |
| C105 | `C105_fits` | none |
| C105 | `C105_full` | none |
| C105 | `C105_other_errors` | none |
| C105 | `C105_unloadable` | R4 |
| C106 | `C106_bare_name` | none |
| C106 | `C106_dirname_same` | none |
| C106 | `C106_drive` | none |
| C106 | `C106_kind_everywhere_refuted` | none |
| C106 | `C106_kind_same` | none |
| C106 | `C106_kind_separators` | none |
| C106 | `C106_kind` | none |
| C106 | `C106_no_directory` | none |
| C106 | `C106_posix` | none |
| C106 | `C106_saved` | none |
| C107 | `C107_rotate_double` | R4 |
| C107 | `C107_rotate_succeeds` | R4 |
| C107 | `C107_rotate` | R4 |
| C107 | `C107_stays_at_origin` | R4 |
| C107 | `C107_translate_double` | R4 |
| C107 | `C107_translate_exact` | R4 |
| C107 | `C107_translate_succeeds` | R4 |
| C108 | `C108_attributes_refuted` | none |
| C108 | `C108_bound` | none |
| C108 | `C108_same` | none |
| C108 | `C108_small_file_refuted` | none |
| C108 | `C108_success` | none |
| C109 | `C109_histories` | none |
| C109 | `C109_length` | R4 |
| C109 | `C109_merge` | R4 |
| C110 | `C110_attribute_distinct` | none |
| C110 | `C110_attribute_unknown` | none |
| C110 | `C110_attribute` | none |
| C110 | `C110_head_distinct` | none |
| C110 | `C110_head_lines` | none |
| C110 | `C110_head` | none |
| C110 | `C110_loaded_refuted` | R4 |
| C110 | `C110_mesh_refuted` | none |
| C110 | `C110_numeral` | none |
| C110 | `C110_versions_refuted` | none |
