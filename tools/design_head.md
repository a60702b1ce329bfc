# Formal model of RustBCA in Rocq (Coq 8.16.1)

## Approach

The code is modelled function by function as total Gallina functions that are
**generic in the number type**: a class `Num F` (theories/Num.v) lists the f64
operations the code uses (arithmetic, comparisons, `sqrt`, `powf`, `exp`, ...,
literals, `floor`, `as i32`).  The same model text is then used five times:

* *for every `Num F`* - structural and bookkeeping theorems (who is returned,
  which flags, which rows are written, which lookups panic) make no assumption
  on the arithmetic, so they hold for IEEE-754 doubles with NaN, infinities and
  rounding as well as for any other semantics;
* *for `F := R`* (theories/NumR.v) - physics theorems (conservation laws,
  derivatives, geometry) are about the formulas in exact real arithmetic.
  Coq's `x/0` and `sqrt` of a negative number are total junk values, so each
  such theorem carries the guards under which the code divides by non-zero
  numbers and takes roots of non-negative ones;
* *for `F := spec_float` (binary64)* (theories/NumSF.v) - statements about
  rounding and NaN use Coq's executable specification of IEEE-754 (`SpecFloat`,
  pure Gallina, no axioms).  Transcendental functions are left arbitrary there;
* *for `F := binary_float 53 1024`* (theories/NumB.v) - general theorems about
  rounding use Flocq's binary64 data (valid representations only); NumB.v proves
  that its operations are those of NumSF;
* *for `F := option R`* (theories/NumO.v) - exact arithmetic in which a quotient
  by zero, a root of a negative number and the like are undefined, propagate and
  compare false, so that statements need no guards.

A panic is a value: every function that can panic returns
`Res A := Ok a | Panic kind | OutOfFuel`.  Loops whose length is not known in
advance (`single_ion_bca`) take fuel and return `OutOfFuel` when it runs out;
theorems speak about `Ok` results, or say explicitly that no fuel suffices.
`rand::random::<f64>()` is a stream `nat -> F` read through a counter that is
threaded through the model, so "for every random stream" is a quantifier.

Geometry (a trait in the code) is a record of functions; Mesh0D, Mesh1D,
Mesh2D, HomogeneousMesh2D, Sphere, ParryBall are instances built by model
constructors.  `geo::Polygon::contains`/`closest_point` and parry3d trimesh
queries are external: they enter as arbitrary functions.

## Files

| file | content |
|---|---|
| Num.v | `Res`, the `Num` class, literals, sums, list access that can panic |
| NumR.v, NumSF.v, NumB.v, NumO.v | instances |
| Model*.v | the model, one file per source file; no proofs |
| Spec.v, SpecR.v, SpecCollision.v, SpecInput.v, SpecRun.v, SpecLib.v | specification vocabulary used in theorem statements |
| Toy.v, ToyR.v | small targets and ions used in examples of non-vacuity |
| ToyLibm.v, ToyRun.v | an executable binary64 math library (series) and complete simulation runs under it, for examples and refutations |
| Proofs*.v | lemmas |
| Properties*.v | the property theorems (each `exact lemma`) with `Print Assumptions` and examples |

## Trusted base

* Coq 8.16.1's kernel, including `vm_compute` where used (concrete runs).
* The faithfulness of the hand-written model to /repo/src.  Each definition
  cites file and lines, simplifications are stated in its comment, and
  tools/audit_citations.py checks the citations against the Rust items.
* Axioms: no axiom is added.  `Print Assumptions` after each theorem lists
  at most these four axioms of the standard library's real numbers:
  A1 `ClassicalDedekindReals.sig_forall_dec`,
  A2 `ClassicalDedekindReals.sig_not_dec`,
  A3 `Classical_Prop.classic`,
  A4 `FunctionalExtensionality.functional_extensionality_dep`.
  AXIOMS.md (written by tools/axioms.py) has the list per theorem.
* Reading of f64: theorems over R are about exact arithmetic and do not bound
  rounding errors; theorems for every `Num F` hold in f64; theorems in NumSF and NumB are
  about IEEE-754 binary64 as specified by SpecFloat, with an arbitrary libm.

## What is modelled

All functions of bca.rs, particle.rs, material.rs, geometry.rs, sphere.rs,
interactions.rs, consts.rs, physics.rs, output.rs, the checks and particle
generation of input.rs, the constructors and queries of parry.rs relative to
the external queries, main.rs as a relation between the files before and after a run (ModelMain.v) and the entry points of
lib.rs (C, Fortran, Python; yields and reflection coefficients; surface-normal
frames; memory layouts).  Cargo features: `cpr_rootfinder`, `distributions`
and `hdf5_input` are parameters of the model where they change behaviour.

## What is not modelled

* TOML syntax: `ModelToml.v` starts from the tree of TOML values and models what
  the derived deserializers read from it; the text-to-tree parser and `str::parse`
  of unit strings are not modelled.  An HDF5 file's content is an arbitrary list
  of rows.
* Printing: `Display`/`Debug`, progress bars (indicatif), number formatting in
  output files (rows are lists of numbers).
* Threads: rayon is modelled by its contract (an ordered `collect`, or an
  arbitrary interleaving of mutex-protected updates), not by its scheduler.
* `rand`: an arbitrary stream; its distribution is not modelled.  `Normal::new`
  is a predicate on the standard deviation, samples are arbitrary.
* libm: `sin`, `exp`, `powf`, ... are the real functions over R and arbitrary in
  binary64.
* External geometry: `geo` polygon queries, parry3d ball and trimesh queries
  enter as arbitrary functions or with their contract as a hypothesis.
* rcpr's Chebyshev-proxy and polynomial root finders are arbitrary functions.
* Raw pointers, `mem::forget`, Python objects: arguments are lists, results are
  values; only allocation sizes are modelled (C64).
* The feature `accelerated_ions` (it does not compile: bca.rs 185 calls
  `get_energy_barrier_thickness`, which no file of the repository defines),
  and trivial accessors/wrappers (`get_options`, `*_py` aliases).
* usize overflow and the conversion of lengths to c_int.
