# Formal model of gyoto/Gyoto in Rocq: design

Everything lives in `/verif/rocq/theories`, logical name `Verif`.  For every
area `X` there are up to four files:

* `XModel.v` – Gallina definitions only, each citing the `/repo` file and lines
  it models and naming its simplifications.  No proofs.
* `XSpec.v` – the small independent specification used in the statements
  (omitted when the statement needs only library notions).
* `XProofs.v` – lemmas.
* `PropertiesX.v` – only `Theorem … Proof. exact lemma. Qed.`, non-vacuity
  `Example`s and `Print Assumptions`.

A statement that is false of the faithful model is proved in the negative under
a name ending in `_refuted`; those are findings about the code, collected in
the section "Findings".  A theorem that proves only part of the English
property ends in `_partial`.

## Conventions

* C++ `size_t` is `Z` (or `N`) with explicit `mod 2^64` where wrap-around can be
  observed, `nat` where the code's own bounds exclude it (said at the definition).
* Out-of-bounds access, use after free, null dereference and uncaught
  `GYOTO_ERROR` are distinct outcomes of the model, never a default value.
* `double` is the mathematical real number type `R` in the geometric parts:
  rounding, infinities and NaN are not modelled there.  Theorems over `R` rest on
  the axioms of the standard library's `Reals`.
* Calls into code outside the model (metric functions, object functions,
  integrators, file contents) are universally quantified arguments.
* Threads: interleavings of atomic critical sections (mutex-protected regions).

## Trusted base

* The kernel of Coq 8.16.1 (and `coqc`'s parser and elaborator for the
  statements).  No OCaml plugin is loaded by the sources beyond those of the
  installed libraries' tactics, which produce terms the kernel checks.
* No axiom is declared in `/verif`.  The axioms used are the standard library's,
  listed by `Print Assumptions` for each theorem in the table at the end of this
  file.  They are those of the classical real numbers
  (`ClassicalDedekindReals.sig_forall_dec`, `sig_not_dec`), functional
  extensionality (`FunctionalExtensionality.functional_extensionality_dep`) and
  excluded middle (`Classical_Prop.classic`).
  Coquelicot, Flocq, mathcomp and the other installed libraries are used for
  tactics and lemmas only; they add no axiom of their own.
* The reading of the C++ source: each definition of a `…Model.v` file was
  written by hand from the cited lines.  Nothing checks that correspondence
  mechanically; the seeded errors of `seeded/LOG.jsonl` check that the theorems
  notice when a definition departs from the code.
* The specifications (`…Spec.v`), which say what the English properties mean.

What is simplified throughout: `double` is `R` in the geometric parts (no
rounding, overflow, infinities or NaN); memory allocation does not fail; the
compiler, the C and C++ libraries, cfitsio, udunits, xerces, boost and MPI behave
as documented, and enter as arguments of the definitions wherever their result
matters.

## What is modelled and what is not

Modelled (the exact lines are in the comments of the model):

| code | model |
|---|---|
| `include/GyotoSmartPointer.h`, `lib/SmartPointer.C` | SmartPtrModel, RefCountModel |
| `lib/Hooks.C`; the metric setters of Worldline, PolishDoughnut, OscilTorus, PageThorneDisk, XillverReflection, Shift, Jet | HooksModel |
| `include/GyotoScreen.h`, `lib/Screen.C`: pixel sets, observer position, coordinate conversions, ray directions and tangents, initial polarisation basis, angle units, mask | CoordSetsModel, ScreenModel, MaskModel |
| `lib/Scenery.C`: rayTrace (threads, MPI manager), pixel programs, requested quantities; `bin/gyoto.C`: output cube layout and MPI slots | RayTraceModel, QuantityModel |
| `lib/Astrobj.C`: Properties record, processHitQuantities, default emission / transmission / radiative transfer, polarised transfer matrices, interpolation | QuantityModel, HitModel, DefEmitModel, PolarModel, InterpModel |
| `lib/Worldline.C`: point storage, extension, lookup, resampling; step limits, adaptive steps, root bracketing, angle normalisation; integrator choice, settings and copies | WorldlineModel, RayNumModel, IntegModel |
| `lib/Photon.C`: transmissions along the ray (Photon and Refined) | TransmissionModel |
| `lib/Metric.C`: vector operations, frames, observers, 3+1 states, default coefficients, default Christoffel symbols | MetricVecModel, DefMetricModel |
| `lib/Minkowski.C`, `lib/KerrBL.C`, `lib/KerrKS.C`: coefficients and Christoffel symbols; KerrBL in momentum form | CoefModel, KerrMomModel |
| `lib/Utils.C`: matrix inversion, unit conversion, text splitting, debug mode; `lib/Converters.C` | InvertModel, UnitsModel, TextModel |
| `lib/Object.C`, `lib/Property.C`, `lib/Value.C`: properties, nested paths, values | PropertyModel |
| `lib/Register.C`, `lib/Factory.C`: class lookup, plug-in list, arrays, shared objects, file names | RegisterModel, FactoryModel, TextModel |
| `lib/ComplexAstrobj.C`, `lib/ComplexMetric.C`, `lib/ComplexSpectrometer.C`, `lib/Spectrometer.C`, `lib/UniformSpectrometer.C` | CompositeModel, SpectroModel |
| `lib/Spectrum.C`, `lib/PowerLawSpectrum.C`, `lib/BlackBodySpectrum.C` | SpectrumModel |
| `lib/Functors.C` | RootModel |
| `lib/GridData2D.C`, time translation of tabulated disks | GridModel |
| `lib/PatternDisk.C` | PatternModel |
| `lib/Astrobj.C`: computeB4vect, computeB4vect_ipole, get_theta_mag, getChi, getSinCos2Chi | MagModel |
| `lib/PageThorneDisk.C`, `lib/ThinDiskProfile.C`, `lib/StochasticThinDisk.C`, `lib/DynamicalDiskBolometric.C`: processHitQuantities | OwnHitModel |
| `lib/PageThorneDisk.C`: updateSpin, metric, tell, bolometricEmission, emission | PageModel |
| `lib/DirectionalDisk.C` (loading, settings, emission), `lib/NeutronStarModelAtmosphere.C` (emission), `lib/XillverReflection.C` (emission, date of the lamp; not its loading, nor the cosine of the incidence) | TableModel |
| `lib/Disk3D.C` (loading, settings, cloning, getIndices, getVelocity in spherical coordinates, Impact; not fitsWrite, nor the release of memory) | SlabModel |
| `lib/DynamicalDisk.C` (dates, loading, cloning, emission; the velocity only as a quantity of one date), `lib/DynamicalDisk3D.C` (dates, loading, cloning, emission, transmission, velocity; not the metric setter) | DynModel |
| `lib/Scenery.C` (operator() for a pixel, updatePhoton), with what a ray leaves in the photon: `lib/Photon.C` (hit, transmissions, copy), `lib/Worldline.C` (setInitCoord, reInit, xExpand, copy), `lib/WorldlineIntegState.C` (init), `lib/Astrobj.C` (Properties::init) | PixModel |
| `lib/Worldline.C`: getCoord at dates, getCartesian, get_xyz, get_prime, save_txyz (the integration step, the check of the transported basis, the normalisation of the velocity and checkPhiTheta are arguments; the search of the two neighbours and the extension of the line are in WorldlineModel) | GetModel |
| `lib/NumericalMetricLorene.C`: diff in 3+1 form for one time; `lib/KerrBL.C`: diff31 (Lorene scalars are functions given with their derivatives; the stop below the horizon and the interpolation between times are in LorModel) | AdmModel |
| `lib/NumericalMetricLorene.C`: slices, interpolation between dates, metric, inverse, derivatives, Christoffel symbols, horizon, circular orbits, `diff` at a date (the fields themselves, read by the LORENE library, are arbitrary) | LorModel |
| `bin/gyoto.C`: main (options on pixels, scene, unit, parameters, files, impact coordinates, floating-point traps; image memory; what is done with the files named) | `CliModel.v` |
| `lib/ThermalSynchrotronSpectrum.C`, `lib/PowerLawSynchrotronSpectrum.C`, `lib/KappaDistributionSynchrotronSpectrum.C`, `lib/ThermalBremsstrahlungSpectrum.C` (formalism switched on by default) | SynchModel |
| `lib/UniformSphere.C`, `lib/FixedStar.C`, `lib/FreeStar.C`, `lib/InflateStar.C`, `lib/StarTrace.C`; `lib/Star.C`: rMax and the entries; `lib/EquatorialHotSpot.C`: emission | `StarModel.v` |
| `lib/Blob.C` (settings, writing order, getCartesian, getVelocity, modulation), `lib/Plasmoid.C` (settings, radius, getCartesian, getVelocity, the mix of fields, times of the table) | `BlobModel.v` |
| `lib/DeformedTorus.C` (all but emission), `lib/NeutronStar.C` getVelocity, `lib/ThinDiskIronLine.C`, `lib/ThinDiskPL.C`, `lib/PatternDiskBB.C` emission, `lib/ThinDiskProfile.C` getVelocity (circular-orbit formulas of Kerr; those of the other metrics as arguments), emission, model_param, `lib/SimThickDisk.C` operator() and opening | `DeformModel.v` |
| `lib/Torus.C`: shape, settings, velocity, light; `lib/ThickDisk.C`: settings, density, temperature, light (unpolarised and polarised), velocity; `lib/Jet.C`: settings, shape, base, density, light, velocity, combined field | `FlowModel.v` |
| `lib/Shift.C` (all but the copy, see C48) | `ShiftModel.v` |
| `lib/Minkowski.C`: diff; `lib/Metric.C`: cartesianVelocity | `NewtonModel.v` |
| `lib/FlaredDiskSynchrotron.C`: settings, copies of tables, copy constructor, operator(), radiativeQ (without a table of the field, and the strength of the field with one), getVelocity; not the FITS files, nor the angle between field and light | `FlaredModel.v` |
| `lib/Metric.C`: myrk4, myrk4_adaptive (the Legacy integrator; not those of KerrBL and RotStar3_1) | `Rk4Model.v` |
| `lib/PolishDoughnut.C`: lambda, angmomrinner, metric, tell, changeCusp, operator(), getVelocity; not the emission nor the ADAF | `DoughModel.v` |
| `lib/OscilTorus.C`: setters, metric, tell, updateCachedValues, computeXbYb, operator(), getVelocity, the area in emission, the copy of the file name; not the reading of the file nor a metric that is refused | `OscilModel.v` |
| `lib/Minkowski.C`: observerTetrad | `MinkModel.v` |
| `lib/NeutronStarModelAtmosphere.C`: constructors, copyIntensity, copyGrid*, averageOverAngle, file, fitsRead, fitsWrite | `AtmoModel.v` |
| `lib/SphericalAccretion.C`: settings, shape, velocity, light | `AccrModel.v` |
| `lib/Scenery.C`: mpiSpawn, mpiTerminate, mpiClone, mpiTask, mpiWorker, destructor, the broadcasts of rayTrace | MpiModel |
| `lib/StandardAstrobj.C` (Impact), `lib/ThinDisk.C` (Impact, height, radius, azimuth) | ImpactModel |
| `lib/Photon.C` (hit: which intervals are shown, stop conditions, return value, image orders; storage is in WorldlineModel) | TraceModel |
| `lib/Hayward.C` (gmunu, gmunu_up, christoffel, circularVelocity, getPotential, getSpecificAngularMomentum), `lib/KerrBL.C` (getPotential, getSpecificAngularMomentum, getRms, getRmb) | HayModel |
| `lib/ReissnerNordstrom.C`, `lib/SchwarzschildHarmonic.C`, `lib/RezzollaZhidenko.C`, `lib/ChernSimons.C` (gmunu, circularVelocity), `lib/BalasinGrumiller.C` (gmunu, christoffel): coefficients, Christoffel symbols, orbits; not the tests on r of the harmonic and Rezzolla-Zhidenko metrics, nor ChernSimons::diff | MetModel |
| `lib/KonoplyaRezzollaZhidenko.C` (coefficients, derivatives, Christoffel symbols, Keplerian orbits, mutators, copy), mutators and copies of `lib/RezzollaZhidenko.C`, `lib/Kerr2PN.C` | KrzModel |

Not modelled: the XML parsing itself (xerces), FITS input and output beyond the
order and sizes of the tables, the Python and
Yorick bindings, LORENE plug-in classes, error-reporting text, and the physical
content of the astrophysical objects and metrics not named above.  Also not
modelled: rounding of floating-point numbers, signals and floating-point traps,
and the time a computation takes.

## Plan per property

| id | model | proof |
|----|-------|-------|
| C01 | heap of counted objects + pointer slots, one step per smart-pointer operation, use-after-free as an outcome | invariant count = number of holders, induction over histories; refutation for raw-pointer and pointee assignment |
| C02 | thread pool with per-thread reference lists, atomic inc/dec/delete steps | invariant over all interleavings |
| C03 | listener list of a teller | refinement to a multiset of hooks by induction over histories |
| C04 | Range/Indices/Grid/Bucket iterators with 64-bit arithmetic | enumeration theorem by induction; refutations for the wrapping cases |
| C05 | transition system of workers sharing the iterator and the output record | invariant over all interleavings, final buffer = sequential buffer |
| C06 | manager state machine driven by arbitrary arrival order | invariant and termination measure |
| C07 | the record as 24 optional addresses | algebra of offsets |
| C08 | cube layout as a fold over quantities | disjointness/cover over all subsets |
| C09 | bit set and token list | round trip over all bit sets |
| C10 | array with indices, expansion, integration with an arbitrary step oracle | invariant over all histories |
| C11 | the search loop on arrays of reals/integers | loop invariant |
| C12 | resampling date list over R | arithmetic |
| C13 | clamp functions over R | case analysis |
| C14 | normalisation over R with the loops as fmod-like steps | trigonometric identities |
| C15 | bisection over R with an oracle function | fuel-free statement: termination from halving |
| C16 | per-channel transmission state | induction over the cell sequence |
| C17 | object with property table chain and value store | lookup/update laws |
| C18 | object tree | induction over the path |
| C19 | tagged value with all members, as in the class | induction over assignments |
| C20 | registration list | list lemmas |
| C21, C22 | character-list parser | induction over strings |
| C23 | token-level array parser | induction over lists |
| C24 | factory state machine with memoised slots | invariant over request histories |
| C25, C26 | formulas over R | trigonometric identities |
| C27 | unit tables | case analysis over names, field arithmetic |
| C28 | boundary tables over R | induction over channels |
| C29, C30 | element lists and table recomputation | invariant over histories |
| C31–C35 | formulas over R | `field`/`nsatz`-style identities, derivatives from `Reals` |
| C36, C37 | mutually recursive defaults with the guard-flag word | termination and history independence for all subsets |
| C38 | interpolation in tables of any dimension (InterpModel) and in GridData2D: index search, corners, weights, reduction axis by axis | the result is the multilinear interpolation of the cell where the query stands; bounds, nodes, exactness and boundary conditions follow; refutations at the edges |
| C39 | PatternDisk: the table setters, copy constructor, FITS read and write, index search, interpolation, emission, transmission and velocity; histories of setters as a state machine | invariant (each table as long as the current dimensions, spacings as derived) by induction over histories; interval reasoning for the queries; refutations at the edges |
| C40, C41 | formulas over R | identities and refutations |
| C42 | `rotateJs`, `Omatrix`, `Pmatrix` over R (`PolarModel`); Eigen's solver and matrix exponential are arguments with contracts | the closed form solves dS/dx = j - K S (Coquelicot derivatives), uniqueness through the inverse, physical cone by a quadratic invariant, thin regime by three integrations of a bound |
| C43 | name tables | exhaustive case analysis over the finite table |
| C44, C45 | setter state machines | induction over histories |
| C46 | path strings | induction over strings |
| C47 | trapezoid refinement | induction over refinement depth |
| C50 | composite with the metrics of its parts | invariant over histories |
| C51 | selection of parts and the sweep over the refined ray | list lemmas |
| C52 | direction of the photon of a pixel, as functions of reals, with fuel for the normalisation loops | trigonometry; refinement to polar, equatorial and gnomonic directions |
| C53 | the formulas of the basis | trigonometry |
| C54 | setters and getters without udunits | case analysis |
| C55 | CoefModel.v: Christoffel symbols, Jacobian, right-hand side; GeoSpec.v: curve following it, products | chain rule for each metric, derivative of the product is zero, mean value theorem |
| C56 | KerrMomModel: constants, coordinate/momentum conversion, right-hand side, renormalisation and correction, as real functions; Coq curves with derivatives | Right-hand side shown to be the textbook geodesic equation by differentiating the lowered velocity; Carter constant by derivative zero; the correction by cases |
| C57 | KerrMomModel: the four methods with options for division by zero and roots of negatives | Field identities from the positivity of Delta and Sigma outside the horizon |
| C58 | KerrMomModel.kerr_circular | Christoffel contraction along the circle is zero by a field identity |
| C59 | SpectrumModel.v: settings as state machines | induction on the history, independent last-asked specification; refutation of the unrestricted claim for the black body |
| C60 | IntegModel.v: to31, from31, check_array, do_step_call, next_step_fixed; stepper, lapse and shift universally quantified | PropertiesInteg.v: unfolding and field arithmetic; counter-example across the pole |
| C61 | RootModel.v: ridders_turn, ridders_loop, secant_loop, over the reals | PropertiesRoot.v: each turn halves the bracket and keeps a sign change (induction on log2 of the length); intermediate value theorem for continuous functions |
| C62 | bounds, times and offset of a grid (GridModel) | induction over histories; the bounds follow the last translation, the times the sum of them, hence a refutation |
| C63 | processHitQuantities with the object's functions as arguments, folded over the hits of a ray | one-step lemma for each output, then induction over the list of hits |
| C64 | Standard::Impact: choice of the stretch, backward march, record of a miss | termination and invariants of the march by induction on the number of steps; tiling under the hypothesis of a single passage; folds over the misses |
| C65 | ThinDisk::Impact with the normalisation of the ends and the wrapped height | side of the plane from the sine of the wrapped height; bisection keeps the two sides |
| C66 | Photon::hit: the loop over stored points, the loop over new points, tracking of crossings and turning points, User1 to User3 | induction on the number of turns with invariants relating the log, the path, the counts and the history of light |
| C67 | MetModel, HayModel, KrzModel: gmunu, gmunu_up, christoffel | derivatives by Coquelicot, then field identities; refutations at points |
| C68 | MetModel, HayModel, KrzModel: circularVelocity | Euler-Lagrange equations along the line of constant velocity (MetSpec.geodesic_line) |
| C69 | HayModel, MetModel, KrzModel | algebra on the orbits of C68; induction over mutators |
| C70 | HayModel: bl_rms, bl_rmb | the cubic satisfied by Z1, then the quartic of the marginally stable orbit |
| C71 | MagModel: sph_*, cart_*, b4vect, ipole | field_along of each by signature argument; uniqueness; counterexamples for Poloidal and Parabolic with a moving emitter and for ipole in Cartesian coordinates |
| C72 | MagModel: theta_mag, get_chi, sin_cos_2chi | get_chi reduced to the two components of the field on the screen, then quadrant by quadrant; the electric case throws in one quadrant |
| C73 | OwnHitModel.v: the four overriding functions on the records of HitModel.v, with user4; emission, radiative transfer and the scalar product are arbitrary | induction over the hits; sums of OwnHitSpec.v/HitSpec.v; what is refused and what is not recorded as refuted theorems |
| C74 | PageModel.v: the roots, the bracket, the scale and the temperature, the state (spin, inner radius) | trigonometric identity for the roots, partial fractions of a quartic for the derivative of the bracket, fundamental theorem of calculus for the law with the orbits of KerrMomModel.v, mean value theorem for the sign |
| C75 | manager and workers as two communicating state machines; sceneries, teams and messages (MpiModel); the same program without MPI, and the documented discipline (MpiSpec) | simulation by induction over the program: each team idle and holding the current content when the discipline says so; ownership invariant for programs that are not careful; counterexamples by computation |
| C77 | The loads as operations on optional vectors with lengths; index searches and interpolation over them with every read checked; the lamp's azimuth with fuelled loops (TableModel) | Invariant over all load sequences that lengths match sizes; searches bracket, hence the emission equals an independent piecewise linear lookup (TableSpec) |
| C78 | The members as a record, the setters and the file reader as operations that may throw half way; cells with conversions to size_t checked; Impact over an arbitrary path (SlabModel) | Invariant over all histories; the index is proved to be that of the nearest node against SlabSpec; the two loops of Impact are characterised by induction, with termination by the Archimedean property |
| C79 | The choice of the date as a loop over the number of dates; the quantity of one date as an argument; arrays of pointers as lists with unset elements; the thick disk's files read by SlabModel (DynModel) | The date picked brackets the time, by induction on the loop, hence the independent blend of DynSpec; loading by induction on the files; the cell from C78 |
| C76 | PixModel.v: the pixel functor with everything a ray leaves in the photon: arrays with any content, capacity, indices, step, transmissions, constants, integrator; metric, object and stepper are arbitrary functions | a simulation between the runs of two photons with different memories, then induction over the series of requests; clone as one more photon |
| C80 | getCoord at a stored point and between two stored points, with the integration step, the check of the basis, the normalisation and the angle folding as arguments; getCartesian, get_xyz, save_txyz, get_prime, the vector forms | case analysis of which points enclose the date, algebra of the interpolation, derivatives with Coquelicot |
| C81 | AdmModel.v: the fields of a slice as functions with the derivatives they tell, the conversion from the orthonormal to the natural basis, the general and the axisymmetric right-hand sides, and the Kerr right-hand side, term by term | Show the rates of the momenta g u and of time from the right-hand side (an algebraic identity that uses the definition of the extrinsic curvature), differentiate the four-metric along the curve, and compare with the geodesic equation in Lagrangian form; for Kerr show that the intermediate quantities are the derivatives of the ADM fields of the metric of the code |
| C82 | LorModel.v: the search for the slice, the two interpolations, metric, inverse and derivatives, Christoffel symbols in both forms, horizon, circular orbits, equations at a date; a slice is a record of scalar fields with their derivatives (AdmModel.v) | induction over the search; exactness of Neville's scheme on polynomials by field arithmetic; uniqueness of partial derivatives; cases on all components |
| C83 | options as a list of constructors holding the strings given; atoi with its undefined cases; the state the loop of main keeps; the grid handed to rayTrace; the image as memory indexed by cell; the impact coordinates as an array; the last part of main as a decision | numerals and requests specified as relations on strings, latest word as a fold; run simulates it by induction on the options; grids by C04; paint by induction on the pixels; refutations by computation on concrete command lines |
| C84 | SynchModel.v: settings as state machines, the emission, absorption and rotation formulas, the average over angles, the three radiativeQ and the increments; tgamma and the Bessel functions are arbitrary arguments | Kirchhoff by the invariant that the internal black body is at the last temperature; the average by rewriting the loop as a trapezoid sum; signs and bounds by monotonicity; false parts refuted |
| C85 | StarModel.v: the sphere and its setters, its value and step limit; FixedStar; the entries of a Star; FreeStar; InflateStar; StarTrace; the emission of the hot spot. | PropertiesStar.v: induction over histories; geometry of a chord for the step limit; counterexamples where the code differs. |
| C86 | `BlobModel.v`: settings as state machines, path and tangent of each motion, modulation, radius, field; metric and circular velocity as arguments | tangent = derivative of the path (Coquelicot), induction over settings, real arithmetic; the false parts are refuted |
| C87 | `DeformModel.v`: the formulas, with the metric (up and down) at the point as arguments | derivative along the flow (Coquelicot), algebra in a stationary axisymmetric metric and its inverse; the false parts are refuted |
| C88 | `FlowModel.v`: the three objects with their setters, the metric (up and down) a parameter, the plasma's coefficients a function. | `FlowSpec.v`: distances to the centre and to the axis, walls, equation of transfer, observers of zero angular momentum, direction along a parabola. |
| C89 | S | h |
| C90 | N | e |
| C91 | F | l |
| C92 | R | k |
| C93 | D | o |
| C94 | O | s |
| C95 | `AtmoModel.v`: the four tables and three sizes as a state machine over the setters and the files read | invariant by induction over the history; round trip through a file; histories that break the rest |
| C96 | `AccrModel.v`: the settings as a state machine; shape, velocity and light as functions of the settings and the metric | algebra of a stationary axisymmetric metric and its inverse, and uniqueness; Kerr as an instance; the equation of transfer |
| C48 | metrics with their listener cells and client objects, class behaviour as a record of five facts about the class's code | invariant: count of hooks of each client in each metric |

Not expressible in the model, for any property: floating-point rounding, real
scheduling/timeouts, file system and XML/FITS library behaviour, performance.

## Findings (statements refuted in the model)

| theorem | what the code does |
|---|---|
| `C01_assign_raw_refuted` | `p = raw` releases the old object before counting the new one: undefined if the old object owns the new one |
| `C01_assign_member_refuted` | `p = p->next` reads the right-hand side after deleting the object it lives in |
| `C01_object_assign_refuted` | assigning one counted object to another resets the counter of the left-hand side |
| `C01_cycle_refuted` | cycles of smart pointers are never freed |
| `C02_no_mutex_refuted` | built without pthreads, concurrent counting loses updates |
| `C03_self_unhook_refuted` | a listener that unhooks itself while told: the loop reads a deleted cell |
| `C48_copy_refuted` | copies of worldlines (photons, stars) and of Shift metrics do not listen to their metric |
| `C48_refused_refuted` | PageThorneDisk and XillverReflection stop listening when they refuse a metric |
| `C48_destroyed_refuted` | a destroyed XillverReflection is still notified |
| `C48_never_hooked_refuted` | Jet, ThickDisk and SphericalAccretion never hook in their setter |
| `C04_range_zero_step_refuted`, `C04_range_reversed_refuted`, `C04_range_wrap_refuted` | pixel ranges with step 0 divide by zero; reversed bounds or a maximum close to 2^64 wrap |
| `C04_null_indices_refuted`, `C04_grid_aliased_refuted` | null index arrays are dereferenced; a grid built from one range object twice enumerates wrongly |
| `C05_end_read_refuted` | a worker dereferences an index list one past its end |
| `C05_empty_refuted`, `C05_null_data_refuted` | ray tracing an empty set throws; without an output record it dereferences null |
| `C05_not_rewound_refuted` | rayTrace starts where the caller left the set |
| `C05_pixel_zero_refuted` | pixel numbers start at 1; pixel 0 is not rejected |
| `C06_message_refuted`, `C06_two_spectra_refuted` | with two spectral quantities the MPI result message overlaps |
| `C06_no_worker_refuted` | with zero MPI workers the manager waits forever |
| `C08_stride_int_refuted` | the stride is computed as an int |
| `C09_units_refuted`, `C09_string_reuse_refuted` | units are lost by the string getter; the setter damages the buffer it is given |
| `C10_no_initial_condition_refuted` | integrating (or asking coordinates of) a worldline without initial condition reads uninitialised memory |
| `C10_hit_wrap_refuted` | tracing a photon back in time from an initial condition stored at index 0 wraps the index below zero |
| `C10_hit_forward_refuted` | tracing a photon forward in time from the last element of the arrays writes past their end |
| `C13_legacy_refuted` | the legacy integrator limits the next step only: the step it makes can exceed the limit where it is made |
| `C14_phi_range_refuted` | phi = 2 pi is left as it is, so 0 and 2 pi are both canonical |
| `C14_three_plus_one_refuted` | angle normalisation of a 3+1 state flips V^phi instead of V^theta when the photon passes the pole |
| `C14_basis_refuted` | angle normalisation does not flip the theta components of the transported polarisation basis |
| `C15_rounding_refuted` | Photon::findValue never ends when the bracket cannot be halved in floating point (dates beyond about 1e12) |
| `C16_copy_matrix_refuted` | Copying a photon copies only the first transmission matrix; the other channels become the identity. |
| `C16_resize_refuted` | The photon shares its spectrometer but is not told when the number of channels grows: the next reset writes outside the array. |
| `C16_max_observed_refuted` | With a spectrometer without channels the reported maximal transmission is 0 although nothing was absorbed (integration stops at once). |
| `C20_errmode_refuted` | Asking an empty register for a kind throws although the caller asked for null. |
| `C20_attribution_refuted` | loadPlugin does not restore the current plug-in name when the initialisation function throws: later built-in registrations are attributed to the failed plug-in. |
| `C21_empty_entry_refuted` | An empty entry in the plug-in list (two commas) asks for a plug-in without a name and is fatal. |
| `C23_precision_refuted` | Numbers are written to scene files with 15 significant digits: distinct doubles (0.3 and its successor) get the same text, so a scene does not survive a write-read cycle exactly. |
| `C23_extreme_array_refuted` | The largest double inside an array parameter is printed as 1.79769313486232e308, which reads back as infinity (single values are treated specially, arrays are not). |
| `C23_empty_array_refuted,`, `C23_zero_length_refuted` | The array writer always prints element 0: undefined behaviour for an empty array, one number too many for length 0. |
| `C17_title_refuted` | Setting a property by the title of a class (an empty-type entry of the property table) is accepted and ignored instead of being an error (lib/Object.C:153-167, 304-316). |
| `C17_hidden_refuted` | When a class redefines a property of its parent, both are written to XML under the same name and reading back overwrites the value of the class with that of the parent (lib/Object.C:410-418). |
| `C19_negative_refuted` | Reading a negative long as an unsigned long wraps to 2^64-1 without error (lib/Value.C). |
| `C49_screen_refuted` | Object::isThreadSafe passes the pointer to the property instead of the property for screens (lib/Object.C:85): any class with a Screen property that relies on it throws. Scenery, the only such class in the library, overrides the method. |
| `C24_photon_refuted` | A photon that has an astrobj is written with its metric inside the Astrobj element (its Astrobj property comes first), but the reader looks for /Photon/Metric only, so the metric is lost on reading (lib/Factory.C:314-347, 677-691; lib/Photon.C:55-57). |
| `C28_unit_refuted` | Spectrometer band read in a unit for the logarithmic kinds computes pow(10, From(log10(v))) instead of log10(From(pow(10, v))) (lib/UniformSpectrometer.C:239, 247): it does not return the band set. |
| `C28_kind_refuted` | Uniform::kind(string) stores the unknown name before raising the error (lib/UniformSpectrometer.C:188): the kind reported, and written to files, is then the refused one. |
| `C28_constructor_refuted`, `C28_empty_refuted`, `C29_empty_refuted` | The four-argument constructor of Uniform leaves the number of boundaries at 0; nSamples(0) announces one boundary without a table and does not tell its listeners; copying it, or putting it in a composite spectrometer, reads a null pointer. |
| `C29_twice_refuted` | An element present twice in a composite spectrometer is unhooked entirely when one occurrence is removed; later changes are missed. |
| `C29_copy_refuted` | The copy of a composite spectrometer does not listen to its cloned elements (lib/ComplexSpectrometer.C:41-52). |
| `C30_spectrometer_refuted` | operator[] of a composite spectrometer accepts the index equal to the size and reads beyond the array (lib/ComplexSpectrometer.C:86, 93: > instead of >=). |
| `C50_metric_refuted` | A part without metric appended first stays without when a later part brings the metric (lib/ComplexAstrobj.C:94-95). |
| `C41_null_refuted` | Re-orthonormalising the polarisation basis projects orthogonally to the photon wave vector, which is null: it divides by the norm of that vector, i.e. by zero up to rounding (lib/WorldlineIntegState.C:465-473). |
| `C41_exchange_refuted` | Re-orthonormalising writes Etheta into the slots of Ephi and the reverse (lib/WorldlineIntegState.C:482-485). |
| `C25_refused_refuted` | A refused observer position (unknown coordinate kind) has already changed the time and the position angle, not the base vectors (lib/Screen.C:302-331). |
| `C52_declination_refuted` | Equatorial screen angles with a declination beyond the pole give the mirrored direction (lib/Screen.C:622, 633). |
| `C52_single_pixel_refuted` | A one-pixel screen with spherical angles computes 0/0 (lib/Screen.C:502-503). |
| `C52_azimuth_refuted` | When the observer is farther than dmax, the azimuth of spherical screen angles is multiplied by the distance ratio like the other angle (lib/Screen.C:573). |
| `C52_inclination_refuted` | With an inclination outside (0, pi), spherical coordinates mirror the image: sqrt(g_phiphi) is positive where r sin(theta) is not (lib/Screen.C:735). |
| `C53_offset_refuted` | The polarisation basis ignores the offsets dangle1, dangle2 that rotate the photon: it may be parallel to it (lib/Screen.C:805-810). |
| `C53_inclination_refuted` | With a negative inclination in Cartesian coordinates the polarisation basis is not transverse (lib/Screen.C:859-877). |
| `C54_fov_alias_refuted` | The field of view can be set in as, mas, uas and with the degree and micro signs, but not read in those units (lib/Screen.C:1110-1159). |
| `C54_angle_refuted` | Without udunits, viewing angles set in degrees are read in radians whatever the unit asked for (lib/Screen.C:262-298). |
| `C27_frequency_refuted` | Without udunits FromHerz returns 0 for every unit, Hz and the empty one included (lib/Converters.C:412-434). |
| `C27_duration_refuted` | With udunits, a length read as a duration is multiplied by c instead of divided: c^2 times too large (lib/Converters.C:224). |
| `C27_alias_refuted` | ToGeometricalTime refuses the deprecated unit geometrical although the metric is given, because it calls ToSeconds without it (lib/Converters.C:372-377). |
| `C44_filename_refuted` | The mask file name survives the mask when the resolution changes: a saved scene comes back with the old mask and resolution (lib/Screen.C:1298-1304). |
| `C45_modes_refuted` | Passing from one debug mode to another overwrites the verbosity to restore (lib/Utils.C:60-70). |
| `C32_generic_refuted` | matrix4Invert gives a wrong, non-symmetric result for some symmetric Lorentzian matrices that couple three coordinates |
| `C32_circular_ergosphere_refuted` | matrix4CircularInvert divides by zero where g_tt = 0 although the matrix is invertible there (ergosphere) |
| `C56_normalize_boundary_refuted` | KerrBL::Normalize4v: a negative square whose absolute value equals the tolerance passes both the "small enough to zero" and the "too large" tests and its square root is taken |
| `C56_negative_carter_refuted` | KerrBL::CheckCons multiplies the error on the Carter constant by 1/Q; for negative Q the test never fires, so an arbitrarily wrong p_theta is accepted |
| `C37_no_metric_refuted` | A metric providing neither form of gmunu recurses without end: each default calls the other (lib/Metric.C), no flag guards this pair. |
| `C37_history_refuted` | For a metric that the library inverts wrongly (C32_generic_refuted), the first call to gmunu_up mirrors the upper half of the computed inverse and the second returns it raw: the answer depends on the call history. |
| `C36_polar_refuted` | The default polarised radiativeQ stores an absorption coefficient (-ln tau / length, times the identity) in Onu, while its callers multiply Onu in as a transmission matrix (lib/Photon.C:1255) and Plasmoid stores tau times the identity: a transparent object becomes opaque in polarised mode and an opaque one amplifies by 1e300 (lib/Astrobj.C:660-668). |
| `C47_negative_refuted` | Band integration never ends on a negative spectrum: the stop test compares with 1e-2*Icur, which is negative (lib/Spectrum.C:84, lib/Astrobj.C:1869). |
| `C47_accuracy_refuted` | The 1e-2 test is not an error bound: a smooth line of any strength vanishing at both ends and the middle of the band integrates to 0. |
| `C47_oversampled_0_refuted` | PolishDoughnut::integrateEmission with SpectralOversampling 0 indexes outside its arrays (size_t i*0+0-1). |
| `C59_correction_refuted` | BlackBody::colorCorrection multiplies the stored temperature each time it is called: asking twice for the same correction changes the spectrum (lib/BlackBodySpectrum.C:56). |
| `C59_file_refuted` | A colour-corrected black body written to a scene file is read back as another spectrum: Temperature is written already corrected and the correction is applied again. |
| `C43_classic_refuted` | The integrator runge_kutta_cash_karp54_classic reports its name as runge_kutta_cash_karp5, which is refused: the scene file written with it cannot be read back. |
| `C43_integ31_refuted` | The choice of the 3+1 equations is lost by a copy (hence in every ray-tracing thread), by a scene file (the integrator, read later, resets it) and by choosing an integrator. |
| `C60_pole_refuted` | With the 3+1 equations in spherical coordinates, a step on request that crosses the pole flips the velocity in phi instead of that in theta. |
| `C61_ridders_refuted` | The bracketing root finder returns NaN for an interval that brackets nothing, and when both an end and the middle are roots. |
| `C61_secant_refuted` | The secant method reports success (status 0) for a function without any root. |
| `C42_unpolarised_refuted` | `Astrobj::Generic::Omatrix` returns the identity when all polarised coefficients vanish (`Theta` is 0): plain absorption is lost, whatever the optical depth (lib/Astrobj.C:812-813). |
| `C42_thick_refuted` | `Pmatrix` replaces the emission by K^-1 j as soon as alphaI*ds > 100, although the smallest eigenvalue of K is alphaI - alphaP: strongly polarised absorption makes it overestimate a hundredfold. |
| `C42_faraday_refuted` | `Pmatrix` solves with K, singular in a medium with Faraday rotation and no absorption: the emitted intensity is whatever the solver leaves in the null space. |
| `C38_mixed_refuted` | When the boundary conditions of the axes differ, interpNd looks at the condition of the opposite axis (`cond_limit[n-1]`, lib/Astrobj.C:1648): with the {"Linear", "Linear", "Constant"} of lib/Plasmoid.C:226, a time beyond the table gives the last value instead of the linear extrapolation. |
| `C38_last_refuted`, `C38_single_refuted` | Interpolation with regular coordinates reads beyond the table at the last node (lib/Astrobj.C:1714-1716), and gives NaN when an axis has one element (1804). |
| `C38_periodic_origin_refuted`, `C38_periodic_multiple_refuted`, `C38_periodic_irregular_refuted` | "Periodic" (lib/Astrobj.C:1686-1692) is wrong when coordinates do not start at 0, reads beyond the table at a negative whole number of periods, and picks the wrong cell when the coordinates are irregular. |
| `C38_grid_time_refuted` | Without a table of times, GridData2D::interpolate counts the upper time of a cell from the inner radius: `tu = rmin_+dt_*itu` (lib/GridData2D.C:472). |
| `C38_grid_last_time_refuted` | With a table of times, at the last time exactly the result is that of the slice before (lib/GridData2D.C:377-381 with 433). |
| `C38_grid_edge_refuted`, `C38_grid_single_refuted` | GridData2D reads beyond its table at the outer radius and at the last angle of the last slice; with one slice and no table of times, the slice time itself divides by zero and converts the result to an index. |
| `C38_grid_copy_refuted` | Giving a table by copy (ThinDiskGridIntensity::copyIntensity, FlaredDiskSynchrotron::copyDensity) does not update the spacings: if the bounds were set before, every query raises "radius undefined". |
| `C62_twice_refuted`, `C62_error_refuted` | timeTranslation_inMunit moves the bounds by the new translation instead of the old one, but adds the new one to the times: asking twice moves them apart and the disk then raises errors; loading a file after a translation moves only the bounds. |
| `C39_clone_refuted` | Copying a PatternDisk that has explicit radii reads `2*nphi*nr` radii from an array of `nr` (lib/PatternDisk.C:99-100). |
| `C39_edge_refuted` | A PatternDisk with explicit radii reads outside its tables for a radius at or before the first node, or at or after the last one (lib/PatternDisk.C getIndices). |
| `C39_rotating_refuted` | A rotating PatternDisk finds the cell with the rotated angle and interpolates with the unrotated one: an error as soon as the pattern has turned by a cell. |
| `C39_last_angle_refuted` | PatternDisk emission at exactly PhiMax is an error. |
| `C39_beyond_refuted` | Beyond PhiMax, without repetition, PatternDisk reads the opacity past the last angle. |
| `C39_repeat_refuted` | With a repeated pattern, an angle below PhiMin makes PatternDisk read before its table. |
| `C39_dark_refuted` | Giving a PatternDisk an intensity of another size drops the opacity but leaves the optically-thin flag set: the disk emits 0. |
| `C39_load_refuted` | A PatternDisk file refused for its opacity leaves the old opacity table beside the new dimensions. |
| `C39_spacing_refuted` | Moving the inner radius under explicit radii, then removing them, leaves a stale radial step. |
| `C39_removed_refuted` | Removing the intensity table and querying the disk dereferences a null pointer. |
| `C39_file_stale_refuted` | Keywords missing from a PatternDisk file keep the values of the previous file. |
| `C63_opaque_refuted` | With a spectrometer attached but no spectral quantity requested, the channel transmissions stay 1 and a ray is never stopped by opaque matter (lib/Photon.C:690, 1186-1210). |
| `C63_hidden_redshift_refuted` | Redshift and EmissionTime are overwritten by every later hit of the ray, including hits hidden behind opaque matter (lib/Astrobj.C:205-213); Standard::Impact goes on through opaque objects. |
| `C63_polarised_channels_refuted` | With parallel transport, BinSpectrum requested beside Spectrum ignores absorption: Photon::transfer updates only the transmission matrices (lib/Astrobj.C:298, lib/Photon.C:1242-1257). |
| `C63_stokes_alone_refuted`, `C63_no_spectrometer_refuted` | Stokes parameters without Spectrum and parallel transport write through a null pointer; BinSpectrum without a spectrometer dereferences a null pointer (lib/Astrobj.C:267, 413). |
| `C63_impact_polarised_refuted` | ImpactCoords with parallel transport is an error at the first hit. |
| `C64_missed_refuted` | Standard::Impact misses an object the ray passes through when both ends of the interval are outside: findMin always keeps the half next to the lower end, which need not hold the minimum, even for a convex function. |
| `C64_zero_step_refuted` | DeltaInObj 0 is accepted and makes Standard::Impact loop for ever (and the constructor Standard(double) leaves the step uninitialised). |
| `C64_time_refuted` | EmissionTime of a transparent object is overwritten by later intervals that miss it: the final date is not one inside the object. |
| `C65_twice_refuted` | A crossing of a thin disk exactly at a computed point of the ray is counted in both intervals that share the point. |
| `C65_missed_refuted` | A crossing of a thin disk is ignored when both ends of the interval are further than twice the outer radius, whatever happens between. |
| `C66_secondary_refuted`, `C66_max_order_refuted` | Photon::hit returns false for a ray that hit the object when secondary images are hidden (it crossed the plane afterwards) and when MaxCrossEqplane is reached. |
| `C66_null_refuted`, `C66_user2_refuted` | Photon::hit(NULL) with MaxCrossEqplane set dereferences a null pointer; so does User2 requested without User1, or User3 without both, when the order reaches 1 or 2. |
| `C66_cartesian_refuted` | Requesting NbCrossEqPlane, or setting MaxCrossEqplane, is an error in Cartesian coordinates. |
| `C66_forward_refuted` | Integrating forwards, Photon::hit throws at the first point within reach of the object: it asks for the coordinates at index ind+1, above imax_. |
| `C66_shadow_refuted` | With the shadow shown, User1+User2+User3 is not the light of the pixel. |
| `C66_again_refuted` | A second call of Photon::hit on the same photon stops at the first stored point that hits, whatever the record, so it returns other quantities than the first; nb_cross_eqplane_ is not reset either. |
| `C66_stuck`, `C66_stuck_refuted` | When one step both crosses the equatorial plane and turns theta, the test count == turns+1 fails for ever after: the image order stays where it was however many times the ray crosses and turns. |
| `C67_forms_refuted` | Hayward::gmunu_up(pos, 0, 3) at a negative radius has other signs than the matrix form |
| `C67_christoffel_krz_refuted` | KonoplyaRezzollaZhidenko: drN2 has the wrong coefficient for the third asymptotic deformation; the Christoffel symbols are not those of the metric when it is not zero |
| `C67_christoffel_bg_refuted` | BalasinGrumiller: the derivative of W along theta is multiplied by R instead of R and r0, with the wrong sign; the Christoffel symbols are wrong off the equatorial plane |
| `C68_unit_projected_refuted` | RezzollaZhidenko and KonoplyaRezzollaZhidenko compute the velocity at the projection on the equatorial plane: off the plane it is not normalised |
| `C68_direction_refuted` | RezzollaZhidenko, ChernSimons and KonoplyaRezzollaZhidenko ignore the direction of the orbit |
| `C69_k2pn_tied_refuted` | Kerr2PN::kerrQuadrupole(true) does not tie the quadrupole to the spin again |
| `C69_k2pn_flat_refuted` | Kerr2PN is flat space with zero Christoffel symbols whatever the spin |
| `C69_throw_refuted` | RezzollaZhidenko::aparam/bparam, KonoplyaRezzollaZhidenko::deltashorizon and Kerr2PN::quadrupole store a value, then throw because it is not acceptable |
| `C69_rz_copy_refuted` | a copy of RezzollaZhidenko takes its marginally bound radius from the marginally stable one |
| `C69_krz_copy_refuted` | a copy of KonoplyaRezzollaZhidenko has the fourth power of the spin as third power and accepts other deformations |
| `C69_krz_spin_refuted` | KonoplyaRezzollaZhidenko::spin() does not test the deformations again |
| `C69_rn_stop_refuted` | ReissnerNordstrom with a charge below -1 compares the radius with NaN and never stops |
| `C70_retrograde_refuted` | KerrBL::getRms() ignores the sign of the spin, getRmb() does not: for a retrograde spin the marginally bound orbit is outside the marginally stable one |
| ``C71_poloidal_refuted`` | In spherical coordinates the Poloidal field of an emitter with a negative u^theta is not orthogonal to its 4-velocity: B^t is taken as a positive square root (Astrobj.C:1396-1402). |
| ``C71_parabolic_refuted`` | The Parabolic field of an emitter that moves in theta is not orthogonal to its 4-velocity: the term in u_theta lacks the factor 1/2 of the others (Astrobj.C:1424-1450). |
| ``C71_ipole_cartesian_refuted`` | computeB4vect_ipole in Cartesian coordinates converts the position but takes the velocity, and returns the field, as if they were spherical components: the toroidal field on the x axis comes out along z. |
| ``C72_electric_refuted`` | getChi with an electric field throws "Bad domain" for every field with a southern component and none to the east: the angle is only folded on one side (Astrobj.C:1203-1236). |
| `C73_page_spectrum_refuted` | PageThorneDisk: asking for a spectrum without parallel transport always ends in an error, after the spectrum has been added (lib/PageThorneDisk.C:291-305) |
| `C73_page_hidden_refuted` | PageThorneDisk with a spectrometer: the ray goes on behind the opaque disk and redshift and impact coordinates are those of the hidden crossing, the bolometric intensity that of the visible one (lib/PageThorneDisk.C:258-275, 363) |
| `C73_profile_null_refuted` | ThinDiskProfile: a call with no data (made by the callers when nothing is to be recorded) dereferences a null pointer (lib/ThinDiskProfile.C:425, 476) |
| `C73_several_refuted` | ThinDiskProfile and StochasticThinDisk record only the first of user4, spectrum, redshift that is asked for; the others keep their initial value |
| `C73_profile_impact_refuted` | ThinDiskProfile never records impact coordinates or time: asking for them alone is an error (the branch is attached to the test for null data) |
| `C73_profile_channels_refuted` | ThinDiskProfile and StochasticThinDisk refuse every call without a spectrometer of exactly one channel, even for the bolometric intensity or the redshift |
| `C73_noredshift_refuted` | DynamicalDiskBolometric ignores the NoRedshift option (lib/DynamicalDiskBolometric.C:102-106) |
| `C74_temperature_refuted` | PageThorneDisk: the black body temperature divides the SI intensity by the cgs Stefan-Boltzmann constant; the disk radiates a thousandth of its flux (lib/PageThorneDisk.C:138, 216) |
| `C74_mdot_refuted`, `C74_mdot_one_refuted` | PageThorneDisk: mass and accretion rate scale the intensity only if both differ from 1; the accretion rate 1 means other units than every other value (lib/PageThorneDisk.C:202) |
| `C74_retrograde_refuted` | PageThorneDisk: for a negative spin the innermost orbit is that of the positive spin and the emission is negative outside it (lib/PageThorneDisk.C:103-107) |
| `C74_inner_stale_refuted` | PageThorneDisk: the inner radius is set from the first spin only; when the spin of the metric changes later the edge does not move (lib/PageThorneDisk.C:111) |
| `C75_stale_refuted` | After a change of a scenery whose workers run, rayTrace without mpiClone returns the image of the old content, silently. |
| `C75_uncloned_refuted` | rayTrace after mpiSpawn without mpiClone never returns: the workers stop on their empty scenery. |
| `C75_world_again_refuted` | mpiSpawn(-1) compares the size of the team with nbchildren+1 = 0: called twice under mpirun it sends the processes away and keeps them as its team; the next call waits for ever. |
| `C75_spectrometer_refuted` | Asking a spectrum of a scenery without spectrometer stops its workers as well as the call; terminating or destroying the scenery then waits for ever. |
| `C75_world_shared_refuted` | Two sceneries with nProcesses(-1) share the processes of MPI_COMM_WORLD without knowing: the image of one is that of the other. |
| `C75_world_left_refuted` | A scenery using MPI_COMM_WORLD that is destroyed does not release the processes: they wait for ever unless mpiTerminate was called. |
| `C77_above_table_refuted` | DirectionalDisk::emission searches the frequency before testing it: above the highest frequency of the table the search runs past the beginning of the vector |
| `C77_photon_orbit_refuted` | DirectionalDisk: inside the photon orbit the factor of the lamp is not a number, all tests on the band are false, and the table is read as if there were no lamp |
| `C77_reload_refuted` | DirectionalDisk: lowest and highest frequency are only updated by fitsRead, copyGridFreq keeps those of the previous table: valid frequencies are refused |
| `C77_failed_load_refuted` | DirectionalDisk::fitsRead: a file that is refused has already replaced the sizes and the image: the next emission reads outside of the vectors |
| `C77_cutoffs_refuted` | DirectionalDisk: lampcutoffsinev is set in eV and read back in Hz |
| `C77_one_direction_refuted` | DirectionalDisk: averaging over the only direction of a table divides 0 by 0 |
| `C77_atmosphere_layout_refuted,`, `C77_xillver_layout_refuted` | NeutronStarModelAtmosphere and XillverReflection read their tables with the axes in the opposite order to the one documented and stored in the FITS file: even at a point of the grid the value is another one |
| `C77_atmosphere_above_refuted` | NeutronStarModelAtmosphere: above the highest frequency the search runs past the beginning of the vector |
| `C77_xillver_first_refuted,`, `C77_xillver_wrap_refuted` | XillverReflection: at azimuth 0 from the lamp and at the first azimuth of the table the emission is an error; before the first azimuth the flux is extrapolated from the last two columns instead of going around, and may be negative |
| `C77_xillver_cartesian_refuted` | XillverReflection accepts KerrKS but reads x as the radius and z as the azimuth |
| `C77_xillver_face_on_refuted` | XillverReflection: a cosine rounded above 1, or an inclination or ionisation equal to the first one of the grid, is an error |
| `C77_xillver_negative_phase_refuted` | XillverReflection::timelampphizero accepts negative dates, after which part of the orbit gives errors |
| `C77_xillver_no_lamp_refuted` | XillverReflection: with the default lamp radius and no spin the period is 0, and a negative date of the hit never leaves the loop |
| `C78_opacity_refuted` | Disk3D: copyEmissquant() with other sizes keeps the opacity; cloning (or reading) the disk then reads outside of it (lib/Disk3D.C:142-175, 108-112) |
| `C78_badfile_refuted` | Disk3D: a file that is refused for want of velocities has already replaced sizes and image; the disk keeps the velocities of the previous file, which may be too short (lib/Disk3D.C:432-460) |
| `C78_repeat_refuted` | Disk3D: with RepeatPhi 2 the pattern does not repeat: indices are taken modulo nphi although a period has nphi-1 steps (lib/Disk3D.C:657) |
| `C78_ends_refuted` | Disk3D: the setters phimin and phimax forget the repetitions in the step, copyEmissquant, fitsRead and repeatPhi do not (lib/Disk3D.C:264-275) |
| `C78_gap_refuted` | Disk3D: with ZsymmetrizeGrid and a grid that begins above the equator, a photon at the equator is taken to be inside and the index there is negative (lib/Disk3D.C:757-766, 659-664) |
| `C78_mirror_refuted` | Disk3D: below the equator the mirrored grid is used with the vertical velocity of the upper half, not its opposite (lib/Disk3D.C:675-708) |
| `C78_short_refuted` | Disk3D: a segment of the photon that lasts 0.1 or less never hits the disk, even if all of it is inside (lib/Disk3D.C:755, 787) |
| `C78_thin_refuted` | Disk3D: a passage between two samples is not seen (lib/Disk3D.C:737-785) |
| `C78_second_refuted` | Disk3D: only the last stay in the disk during a segment is seen (lib/Disk3D.C:791-826) |
| `C78_length_refuted` | Disk3D: the last step counts for 0.1 whatever its length; the lengths add up to more than the segment (lib/Disk3D.C:795-801) |
| `C78_far_refuted` | Disk3D: a segment with both ends beyond twice the outer radius on the same side of the equator is skipped even when the photon passes through the disk (lib/Disk3D.C:726-732) |
| `C79_jump_refuted` | DynamicalDisk, DynamicalDisk3D: between the last two dates there is no interpolation: just after the last date but one the last file alone is used (lib/DynamicalDisk.C:184, lib/DynamicalDisk3D.C:195, 344, 454); with two files there is never any |
| `C79_clone_refuted` | DynamicalDisk: the copy constructor sets the number of dates to 0 and returns; every emission of a clone (as each thread has one) is an error (lib/DynamicalDisk.C:75, 87) |
| `C79_retry_refuted` | DynamicalDisk: a directory with an unreadable file leaves unset pointers; late emissions read them, the next directory and the destructor release them (lib/DynamicalDisk.C:105-120, 208-222, 255-297) |
| `C79_unloaded_refuted` | DynamicalDisk3D: the number of dates is 1 before any file is read; the emission then reads through a null pointer (lib/DynamicalDisk3D.C:61, 151) |
| `C79_stale_refuted` | DynamicalDisk3D: a longer directory that is refused at its first file leaves its number of dates with the old, shorter arrays (lib/DynamicalDisk3D.C:493-517) |
| `C79_hole_refuted` | DynamicalDisk3D: inside the last stable orbit there is no emission but the transmission is 0: the empty region hides what is behind (lib/DynamicalDisk3D.C:387) |
| `C79_norm_refuted` | DynamicalDisk, DynamicalDisk3D: the interpolation of two 4-velocities is not a 4-velocity (lib/DynamicalDisk.C:162-164, lib/DynamicalDisk3D.C:204-207) |
| `C79_grid_refuted` | DynamicalDisk3D: the check that the grid is constant leaves out the range in azimuth, the repetitions and the step in frequency; all dates are read on the grid of the last file (lib/DynamicalDisk3D.C:584-597) |
| `C76_clone_refuted` | A copy of a photon loses the choice of the 3+1 equations (Integ31), as WorldlineIntegState.C:59-60 starts with false: with several threads, the pixels traced by the copies are not those of the first thread. |
| `C76_polar_refuted` | Scenery::operator() (lib/Scenery.C:713, 774) asks the photon of the scenery, not the photon it was passed, whether the polarisation basis is needed: a photon with parallel transport passed to a scenery without it starts with uninitialised Ephi and Etheta. |
| `C76_stale_matrix_refuted` | resetTransmissionMatrix (lib/Photon.C:199-212) does nothing without spectrometer: the matrix of the observed frequency, getTransmissionMatrix(-1), keeps the product left by earlier rays. |
| `C76_forward_refuted` | A photon whose initial point was set for a forward integration (setInitCoord with dir=1, i0_=0) and then given to a scenery that traces back in time reads before its arrays (lib/Photon.C:323-327). |
| `C80_request_refuted` | getCoord normalises the angles only when theta, phi and thetadot are all requested (Worldline.C:1239-1245): the azimuth returned depends on the request |
| `C80_null_refuted` | with parallel transport and the check of the basis, a request for the whole basis but not for the position and tangent dereferences null pointers (Worldline.C:1215) although the documentation allows them |
| `C80_azimuth_refuted` | getCoord interpolates the azimuth linearly between normalised points: for a photon near the azimuth 0 the answer is on the other side of the axis |
| `C80_save_refuted` | save_txyz with dates writes one row past the end of its table (Worldline.C:1418) |
| `C80_index_refuted` | getCoord with an index accepts vectors of 4 to 7 elements and writes 8 (Worldline.C:1569) |
| `C82_before`, `C82_before_refuted` | NumericalMetricLorene: a date before the first slice runs the search below index 0 of the table of dates (undefined behaviour); the branch meant to use the first slice is never reached. |
| `C82_derivatives_refuted` | NumericalMetricLorene: the interpolation of the inverse metric and of the derivatives falls through its own cases: with a single slice it reads out of the table, and before the second or after the last-but-one date it refuses. |
| `C82_metric_refuted` | NumericalMetricLorene::gmunu ignores the off-diagonal terms of the spatial metric. |
| `C82_up_refuted` | NumericalMetricLorene::gmunu_up uses the covariant spatial metric where the inverse one is needed. |
| `C82_dr_refuted` | NumericalMetricLorene: the derivative along r of g_tt has a wrong power of sin(theta); it is right in the equatorial plane only. |
| `C82_coefficient_refuted` | NumericalMetricLorene::christoffel for one component differs from the one computing all of them in twelve components, and these are not the Christoffel symbols of the metric. |
| `C82_date_refuted` | NumericalMetricLorene: in 3+1 form the equations are always evaluated at date 0, whatever the date of the photon. |
| `C82_circular_refuted` | NumericalMetricLorene::circularVelocity: when the speed seen by the zero-angular-momentum observer reaches that of light the result is not a number, and the test of the norm lets it through. |
| `C83_sigfpe_refuted` | `--no-sigfpe`, documented as not raising SIGFPE, is the option that turns the traps on; without it they stay off (bin/gyoto.C). |
| `C83_image_rest_refuted` | When only part of the pixels is asked for, the other pixels of the output image hold whatever was in the allocated memory: `new double[]` is never filled. |
| `C83_zero_refuted`, `C83_half_refuted` | `-i 0` (or `--imin=0.5`, which passes the test `atof(...) > 0` and is then read by `atoi`) is accepted; pixel 0 is initialised at cell -1, out of the image, before the index check throws. |
| `C83_negative_step_refuted`, `C83_negative_refuted` | A negative step runs down through column 0 and writes out of the image; a negative first column wraps to a huge one and nothing is computed, silently. |
| `C83_null_step_refuted` | `-i 1:10:0` divides by zero in the range, although `--di=0` is taken for 1. |
| `C83_exponent_refuted`, `C83_largest_refuted` | Bounds are tested with `atof` and read with `atoi`: `--imax=1e3` means 1, and the documented default of `--imax` overflows `atoi`. |
| `C84_isotropic_refuted`, `C84_isotropic` | The average over directions leaves out a hundredth of a radian at both poles and is not divided by the integral of the sine: an isotropic quantity comes out too small, by the factor given (about 1e-4 with 100 intervals, nearly 1% with the 10 of the power law). |
| `C84_unchanged_refuted` | A request with angle averaging overwrites the angle with the field by pi - 0.01; if averaging is switched off afterwards, or an increment is asked for, that angle is used. |
| `C84_overpolarised_refuted` | Thermal synchrotron: at low enough frequencies the circular polarisation exceeds the emission, in every direction not normal to the field. No bound is checked. |
| `C84_cold_refuted` | Below kT = 0.01 mc2 `radiativeQ` gives nothing at all, whereas `operator()(nu, opacity, ds)` of the same spectrum does give an emission. |
| `C84_low_frequency_refuted` | Power law: frequencies below gamma_min^2 nu0 are accepted although the comment of the code says the formulas are not valid there; only the upper bound is tested. (With p below 1.0118 `alphaQnuCGS` raises a negative number to a fractional power.) |
| `C84_kappa_fit_refuted`, `C84_kappa_polarised`, `C84_kappa_floor` | Kappa: the rotation is known for 3.5, 4, 4.5 and 5, and given for any kappa in the tenth above each as if it were that value; any other kappa makes a polarised request fail as a whole. A temperature below 0.005 is silently raised to it. |
| `C85_harmonic_behind_refuted` | In SchwarzschildHarmonic coordinates a sphere behind the centre (azimuth between pi/2 and 3pi/2) is shifted the wrong way, because the azimuth comes from atan(y/x): at its own centre its value is 4 sin(theta)^2 and not 0. |
| `C85_fixed_moved_refuted` | FixedStar::rMax is computed once: after the star was moved, photons near it still take steps of half their radius and can jump over it. |
| `C85_star_reach_refuted`, `C85_star_skipped_refuted` | Star::rMax in Cartesian coordinates takes the maximum of signed coordinates: for a star on the negative side it is negative, every step is half the distance to the origin, and photons can jump over the star. |
| `C85_isotropic_integrated_refuted` | Isotropic makes emission() 1 (or ds) but integrateEmission ignores it, so the bolometric image is that of the spectrum. |
| `C85_fixed_ergo_refuted` | A non-rotating FixedStar where the time axis is not timelike gets the velocity 0, which is no four-velocity. |
| `C85_second_position_refuted`, `C85_position_resets` | A Star put at a second position (in a file or by a call) loses its velocity and is at rest. |
| `C85_free_coord_refuted`, `C85_free_short` | FreeStar::initCoord does not count as a position: a velocity is still refused after it; and vectors shorter than needed are read past their end. |
| `C85_free_roundtrip_refuted` | FreeStar::initVelocity takes dx/dt and gives back dx/dtau: what a file writes is not what it reads. |
| `C85_free_derivative_refuted` | FreeStar::getCartesian reports derivatives that use only the theta velocity, in the place of the azimuthal one: a star moving along a radius or in azimuth is said to be at rest. |
| `C85_free_cartesian_refuted` | FreeStar in a Cartesian metric still converts its coordinates by the spherical formulas. |
| `C85_inflate_default_refuted` | An InflateStar whose three extra settings were left out has, from date 0 on, the largest double as its radius. |
| `C85_window_refuted` | StarTrace: TMin then TMax with positive dates (or TMax then TMin with negative ones) on a new trace leaves 0 in the window instead of the first date. |
| `C85_trace_gap_refuted` | A StarTrace is a string of balls around the stored points: it has gaps wherever these are farther apart than the star is wide. |
| `C86_blob_refused_refuted` | A position refused by Blob because it is off the equator has been stored all the same. |
| `C86_blob_roundtrip_refuted` | A HelicalConical Blob off the equator cannot be read back from the file it was written to: `Init4Coord` is written, and so read, before `BlobMotionType`. |
| `C86_blob_no_radial` | A HelicalConical Blob without radial velocity divides by zero. |
| `C86_blob_sigma_refuted` | `TimeSigma` of Blob is not the standard deviation: the factor 2 is missing (it is there for the spatial one). |
| `C86_plasmoid_file_refuted` | A Plasmoid described in a file never works: the kind of motion and of radius are not properties, and without them Impact and getVelocity throw. |
| `C86_plasmoid_max_refuted` | A Plasmoid of varying radius grows beyond `RadiusMax`. |
| `C86_plasmoid_refused_refuted` | A velocity refused by Plasmoid because it is not slower than light has been stored, and is used. |
| `C86_plasmoid_motion_refuted` | The velocity a helical Plasmoid reports is not along its path: it keeps the initial dphi/dt while the path conserves r^2 dphi/dt. |
| `C86_plasmoid_field_refuted` | Without polarisation the mix of toroidal and poloidal field of Plasmoid is divided by beta+1 instead of sqrt(beta^2+1), so its norm is not 1 and an error is thrown (for the default beta too). |
| `C86_plasmoid_time_refuted` | Plasmoid looks its table up at a time in units of the metric without polarisation and in seconds with it. |
| `C87_torus_reversed_refuted` | DeformedTorus: the velocity reported is opposite to the motion of the surface: the equation of the surface is constant along the reversed drift (`C87_torus_drift`), because operator() applies to the point the transformation that getVelocity applies to the material. |
| `C87_torus_norm_refuted` | DeformedTorus: the velocity of a perturbed torus is not a unit one: contravariant g^rr is multiplied by (dr/dt)^2. |
| `C87_torus_beta_refuted` | DeformedTorus: a beta of 1 or more is refused but stored. |
| `C87_surface_velocity_refuted` | NeutronStar: components of the three-metric off the diagonal are left out when the index of the velocity is raised, so the four-velocity is not a unit one. |
| `C87_line_unit_refuted` | ThinDiskIronLine: a `LineFreq` given with a unit is multiplied by 2.4e17: the number of hertz is taken for a number of keV. |
| `C87_line_velocity_refuted` | ThinDiskIronLine: below the cut radius the velocity is (1,0,0,0), not a unit one. |
| `C87_pl_default_refuted`, `C87_profile_default_refuted` | ThinDiskPL with the default inner radius, and ThinDiskProfile with the default parameters, divide by zero. |
| `C87_thick_opening_refuted`, `C87_thick_above_refuted` | SimThickDisk: on a spherical grid the first colatitude is taken for the ratio height over radius instead of its cotangent: part of the grid is left out, or space above the grid taken in. |
| ``C88_torus_rmax_refuted`,`, ``C88_torus_velocity_refuted`,`, ``C88_torus_spectrum_refuted`` | Torus: rMax keeps the value of its first use when the radii change later; the velocity is that of the orbit below in the plane and is not normalised at the point itself; radiativeQ shines by a fixed plasma whatever Spectrum, Opacity and OpticallyThin are; only emission and transmission heed them. |
| ``C88_thick_refused_refuted`,`, ``C88_jet_refused_refuted`` | ThickDisk, Jet: an out-of-range VeloParam or a crossing wall is refused with an error but stored all the same. |
| ``C88_thick_inner_refuted`,`, ``C88_thick_absorption_refuted`` | ThickDisk: below its inner radius the ordinary image shines and the polarised one does not; the polarised image absorbs although UseSelfAbsorption is off. |
| ``C88_thick_cartesian_refuted`,`, ``C88_jet_cartesian_refuted`` | ThickDisk, Jet: getVelocity takes any coordinates for spherical ones without a check; in Cartesian coordinates the disk moves along its axis. |
| ``C88_jet_unset_refuted`` | Jet: with the parabola parameters left unset the shape is undefined (square root of a negative number) at every point off the plane. |
| ``C88_jet_base_refuted`` | Jet: the base of a conical jet is taken at the height of the base radius, not at that distance from the centre. |
| ``C88_jet_wall_refuted`` | Jet: the plasma goes everywhere along the parabolas of the inner wall, so it crosses the outer one. |
| ``C88_jet_lorentz_refuted`` | Jet: any number is taken as Lorentz factor; with a negative one the plasma goes to the past. |
| ``C88_jet_field_refuted`` | Jet: the combined field has the exponent 1 in the image and 0.75 in the polarised image. |
| ``C89_kind_refuted`,`, ``C89_circular_refuted`` | A Shift always says its coordinates are Cartesian, also when it moves a metric in spherical coordinates; the circular (Keplerian) velocity of a Shift is computed around the origin of the coordinates, not around the displaced centre, so it is not that of the metric it moves. |
| ``C90_circular_refuted`` | Above or below the plane z = 0 the Keplerian circular velocity is computed from the distance to the axis and is horizontal; it is not the velocity of an orbit: the particle leaves its plane at once. |
| ``C90_axis_refuted`` | In spherical coordinates with a negative sine of the colatitude, the Keplerian equation of motion gives the second derivative of the colatitude the wrong sign (the square root of r^4 sin^2 is taken as r^2 sin). |
| `C91_tables_refuted` | `FlaredDiskSynchrotron::copyDensity` with another grid frees the velocities but keeps the magnetic field and the times of the old grid; the copy constructor and the interpolation then read past their end. `copyBvector(NULL)` leaves the flag that says a field is there, and the next emission reads a null table. |
| `C91_cartesian_refuted` | `FlaredDiskSynchrotron` in Cartesian coordinates takes z for the longitude in `radiativeQ`, so no point below the plane has an emission, and has no velocity at all, although its shape is defined there. |
| `C91_default_refuted` | The constructor of `FlaredDiskSynchrotron` stores 5/3 as the polytropic index minus one: the index of a new disk reads 8/3. |
| `C91_strength_refuted` | The strength of a field read from a table is computed from the squares of its coordinate components, without the metric: in flat space a field along the longitude at distance r from the axis is too small by the factor r. |
| `C93_change_refuted` | `PolishDoughnut::changeCusp` does not recompute anything: set after `Lambda`, it has no effect until the metric or `Lambda` changes. |
| `C93_error_refuted` | `PolishDoughnut::angmomrinner` marks itself as the setting in force before it checks the number of values: after the error, the doughnut no longer follows `Lambda` when its metric changes. |
| `C93_adaf_refuted` | `PolishDoughnut::setParameter` treats the element `ADAF` as the obsolete list of parameters: the empty element `<ADAF/>`, the form in which the object itself writes that the ADAF is on, changes nothing. |
| `C94_table_refuted` | `OscilTorus::emission` interpolates the area with the wrong sign of the slope: with areas 1 and 3/2 at two successive times it finds 1/2 at the second. |
| `C94_growth_refuted` | For the same reason a table whose area doubles from one row to the next is an error. |
| `C94_unit_refuted` | `OscilTorus::largeRadius` with a unit does not update the values kept: the surface mixes the old and the new radius. |
| `C94_copy_refuted` | The copy of an `OscilTorus` uses the file of areas but does not keep its name, so it is written without it. |
| `C35_minkowski_refuted` | `Minkowski::observerTetrad` is an error in Cartesian coordinates for every kind of observer, even one that gives its whole frame, though the generic code it would call works there. What it computes for a Keplerian observer is written over by that same call. |
| `C95_file_refuted` | When a FITS file of a `NeutronStarModelAtmosphere` fails after its image (an axis missing or of another length), the sizes are those of the new file and the axes those of the old one: the emission and the copy constructor then read beyond their end. |
| `C95_copy_refuted` | A copy of a `NeutronStarModelAtmosphere` has its tables but not its file name: its `File` reads as empty. |
| `C95_name_refuted`, `C95_axis_refuted` | A file that cannot be opened becomes the `File` of a `NeutronStarModelAtmosphere`, although the tables are those of the one before; an axis refused by `copyGridFreq` and the like takes the one before with it. |
| `C96_cartesian_refuted` | `SphericalAccretion::getVelocity` takes the first and third space coordinates for the radius and the longitude whatever the coordinates: in `KerrKS` the plasma moves along the first axis, and beyond a radius of some 200 the tolerance of the check on the norm lets it pass without an error. |

## Assumptions of each theorem

<!-- assumptions: generated by tools/assumptions.py -->

| set | what `Print Assumptions` lists |
|---|---|
| A0 | closed under the global context |
| A1 | `ClassicalDedekindReals.sig_forall_dec` |
| A2 | `ClassicalDedekindReals.sig_forall_dec`, `FunctionalExtensionality.functional_extensionality_dep` |
| A3 | `ClassicalDedekindReals.sig_forall_dec`, `ClassicalDedekindReals.sig_not_dec`, `FunctionalExtensionality.functional_extensionality_dep` |
| A4 | `ClassicalDedekindReals.sig_forall_dec`, `ClassicalDedekindReals.sig_not_dec`, `Classical_Prop.classic`, `FunctionalExtensionality.functional_extensionality_dep` |

| property | theorems, by set |
|---|---|
| C01 | A0: `C01_histories`, `C01_no_leak`, `C01_use`, `C01_assign_raw_refuted`, `C01_assign_member_refuted`, `C01_object_assign_refuted`, `C01_cycle_refuted` |
| C02 | A0: `C02_safe`, `C02_deleted_once`, `C02_no_deadlock`, `C02_no_mutex_refuted` |
| C03 | A0: `C03_told`, `C03_times`, `C03_unhooked`, `C03_destroyed`, `C03_reentrant`, `C03_self_unhook_refuted` |
| C04 | A0: `C04_range`, `C04_range_index`, `C04_range_zero_step_refuted`, `C04_range_reversed_refuted`, `C04_range_wrap_refuted`, `C04_indices`, `C04_angles`, `C04_repeat_angle`, `C04_null_indices_refuted`, `C04_grid`, `C04_grid_each_once`, `C04_grid_size`, `C04_grid_aliased_refuted`, `C04_bucket_accepts`, `C04_bucket_pixels`, `C04_bucket_angles`, `C04_bucket_size`, `C04_empty` |
| C05 | A0: `C05_threads`, `C05_deterministic`, `C05_gyoto_cube`, `C05_masked`, `C05_end_read_refuted`, `C05_empty_refuted`, `C05_null_data_refuted`, `C05_not_rewound_refuted`, `C05_pixel_zero_refuted` |
| C06 | A0: `C06_message_partial`, `C06_message_refuted`, `C06_mpi_partial`, `C06_same_as_threads_partial`, `C06_two_spectra_refuted`, `C06_no_worker_refuted` |
| C07 | A0: `C07_advance_twice`, `C07_advance_slots`, `C07_requested_set`, `C07_requested_constant`, `C07_init`, `C07_init_local` |
| C08 | A0: `C08_disjoint`, `C08_in_bounds`, `C08_no_spare`, `C08_requested`, `C08_stride_int_refuted` |
| C09 | A0: `C09_names`, `C09_round_trip`, `C09_stokes_group`, `C09_unknown_name`, `C09_counts`, `C09_units_refuted`, `C09_string_reuse_refuted`, `C09_parallel_transport` |
| C10 | A0: `C10_history`, `C10_ordered`, `C10_no_initial_condition_refuted`, `C10_hit_wrap_refuted`, `C10_hit_forward_refuted` |
| C11 | A0: `C11_lookup`, `C11_unique` |
| C12 | A2: `C12_resample` |
| C13 | A2: `C13_limit`, `C13_adaptive`, `C13_composite`, `C13_legacy_refuted` |
| C14 | A3: `C14_state`, `C14_screen`, `C14_phi_range_refuted`, `C14_three_plus_one_refuted`, `C14_basis_refuted` |
| C15 | A2: `C15_value`, `C15_minimum`, `C15_rounding_refuted` |
| C16 | A0: `C16_channels`, `C16_observed`, `C16_refined`, `C16_copy`, `C16_copy_matrix_refuted`, `C16_resize_refuted`; A2: `C16_range`, `C16_max`, `C16_polarised`, `C16_max_observed_refuted` |
| C17 | A0: `C17_lookup`, `C17_roundtrip`, `C17_units`, `C17_errors`, `C17_names`, `C17_xml`, `C17_title_refuted`, `C17_hidden_refuted` |
| C18 | A0: `C18_path`, `C18_effect`, `C18_missing` |
| C19 | A0: `C19_history`, `C19_incompatible`, `C19_scalars`, `C19_integers`, `C19_numbers`, `C19_negative_refuted` |
| C20 | A0: `C20_find`, `C20_attribution`, `C20_listed`, `C20_missing`, `C20_any`, `C20_fallback_unused`, `C20_sound`, `C20_errmode_refuted`, `C20_attribution_refuted` |
| C21 | A0: `C21_load`, `C21_list`, `C21_policy`, `C21_path`, `C21_empty_entry_refuted` |
| C22 | A0: `C22_split`, `C22_join` |
| C23 | A0: `C23_roundtrip`, `C23_bounded`, `C23_array`, `C23_extremes`, `C23_precision_refuted`, `C23_extreme_array_refuted`, `C23_empty_array_refuted`, `C23_zero_length_refuted` |
| C24 | A0: `C24_write`, `C24_inconsistent`, `C24_consistent`, `C24_scenery`, `C24_read`, `C24_photon_refuted` |
| C25 | A4: `C25_rotation`, `C25_orthonormal`, `C25_space_sky_space`, `C25_sky_space_sky`, `C25_refused_refuted` |
| C26 | A4: `C26_roundtrip`, `C26_units`, `C26_last_asked` |
| C27 | A2: `C27_frequency`, `C27_frequency_refuted`, `C27_length`, `C27_duration_refuted`, `C27_time`, `C27_mass`, `C27_geometrical`, `C27_geometrical_time`, `C27_alias_refuted`, `C27_refused`, `C27_tables` |
| C28 | A4: `C28_tables`, `C28_total`, `C28_unit`, `C28_unit_refuted`, `C28_kind_refuted`, `C28_constructor_refuted`, `C28_empty_refuted` |
| C29 | A1: `C29_concatenation`, `C29_elements`, `C29_twice_refuted`, `C29_copy_refuted`; A4: `C29_empty_refuted`, `C29_uniform` |
| C30 | A0: `C30_list`, `C30_order`, `C30_spectrometer_refuted`; A2: `C30_metric` |
| C31 | A3: `C31_kerr_bl`, `C31_kerr_ks`, `C31_flat` |
| C32 | A2: `C32_generic_partial`, `C32_generic_refuted`, `C32_circular_partial`, `C32_circular_ergosphere_refuted` |
| C33 | A2: `C33_generic`; A4: `C33_kerr_bl`, `C33_flat`, `C33_kerr_ks` |
| C34 | A3: `C34_null`, `C34_null_defined`, `C34_velocity`, `C34_circular` |
| C35 | A2: `C35_signature`; A3: `C35_project`, `C35_gram_schmidt`, `C35_frame`; A4: `C35_tetrad`, `C35_zamo`, `C35_observer`, `C35_minkowski`, `C35_minkowski_kepler`, `C35_minkowski_refuted` |
| C36 | A4: `C36_answers`, `C36_history`, `C36_elementwise`, `C36_polar_refuted` |
| C37 | A2: `C37_answers`, `C37_inverse`, `C37_no_metric_refuted`, `C37_history_refuted` |
| C38 | A0: `C38_single_refuted`; A2: `C38_value`, `C38_value_regular`, `C38_stands`, `C38_between`, `C38_nodes`, `C38_exact`, `C38_constant`, `C38_safe`, `C38_none`, `C38_null`, `C38_periodic`, `C38_mixed_refuted`, `C38_last_refuted`, `C38_periodic_origin_refuted`, `C38_periodic_multiple_refuted`, `C38_periodic_irregular_refuted`; A3: `C38_grid_value`, `C38_grid_stationary`, `C38_grid_between`, `C38_grid_nodes`, `C38_grid_emission`, `C38_grid_spacing`, `C38_grid_copy_refuted`, `C38_grid_time_refuted`; A4: `C38_grid_last_time_refuted`, `C38_grid_edge_refuted`, `C38_grid_single_refuted` |
| C39 | A0: `C39_clone`, `C39_clone_refuted`; A3: `C39_sizes`, `C39_spacing`, `C39_refused`, `C39_emission`, `C39_thick`, `C39_velocity`, `C39_outside`, `C39_nodes`, `C39_between`, `C39_file`, `C39_lift`, `C39_edge_refuted`, `C39_last_angle_refuted`, `C39_beyond_refuted`, `C39_rotating_refuted`, `C39_dark_refuted`, `C39_load_refuted`, `C39_spacing_refuted`, `C39_removed_refuted`, `C39_file_stale_refuted`; A4: `C39_passing`, `C39_repeat_refuted` |
| C40 | A2: `C40_there_and_back`, `C40_back_and_there`, `C40_step`, `C40_meaning` |
| C41 | A3: `C41_check`, `C41_orthonormal_partial`, `C41_null_refuted`, `C41_exchange_refuted` |
| C42 | A3: `C42_rotate`; A4: `C42_equation`, `C42_transmission`, `C42_compose`, `C42_physical`, `C42_unpolarised_refuted`, `C42_emission`, `C42_thin`, `C42_thick_refuted`, `C42_faraday_refuted` |
| C43 | A0: `C43_accepted`, `C43_history`, `C43_again`, `C43_file`, `C43_settings`, `C43_tuning`, `C43_classic_refuted`, `C43_integ31_refuted` |
| C44 | A0: `C44_mask`, `C44_set`, `C44_resolution`, `C44_unreadable`, `C44_filename_refuted`, `C44_scene` |
| C45 | A0: `C45_restore`, `C45_enter`, `C45_modes_refuted` |
| C46 | A0: `C46_resolve` |
| C47 | A2: `C47_result`, `C47_terminates`, `C47_positive`, `C47_limit`, `C47_order`, `C47_affine`, `C47_channels`, `C47_oversampled`, `C47_oversampled_0_refuted`, `C47_negative_refuted`; A4: `C47_opacity`, `C47_opacity_band`, `C47_accuracy_refuted` |
| C48 | A0: `C48_exact_partial`, `C48_classes_partial`, `C48_no_wrong_teller_partial`, `C48_copy_refuted`, `C48_refused_refuted`, `C48_destroyed_refuted`, `C48_never_hooked_refuted` |
| C49 | A0: `C49_conjunction`, `C49_screen_refuted` |
| C50 | A0: `C50_metric`, `C50_set`, `C50_metric_refuted` |
| C51 | A0: `C51_impact`; A2: `C51_rmax`, `C51_deltamax` |
| C52 | A0: `C52_single_pixel_refuted`; A2: `C52_null_frame`; A3: `C52_pixels`, `C52_rescale`, `C52_azimuth_refuted`, `C52_null_infinity`; A4: `C52_direction`, `C52_declination_refuted`, `C52_same_direction`, `C52_inclination_refuted`, `C52_centre` |
| C53 | A3: `C53_orthonormal`, `C53_centre`, `C53_spherical`; A4: `C53_cartesian`, `C53_offset_refuted`, `C53_inclination_refuted` |
| C54 | A0: `C54_names`; A2: `C54_fov_roundtrip`, `C54_fov_alias_refuted`, `C54_units`, `C54_angle_refuted`, `C54_angle_radian` |
| C55 | A3: `C55_kerr_bl_scalar_product`; A4: `C55_kerr_bl`, `C55_kerr_ks`, `C55_flat` |
| C56 | A3: `C56_constants`, `C56_round_trip`, `C56_normalize`, `C56_normalize_boundary_refuted`, `C56_check_cons`, `C56_negative_carter_refuted`; A4: `C56_geodesic`, `C56_carter` |
| C57 | A3: `C57_null`, `C57_zamo`, `C57_tetrad` |
| C58 | A3: `C58_circular`; A4: `C58_geodesic` |
| C59 | A2: `C59_powerlaw_file`; A3: `C59_blackbody`, `C59_blackbody_plain`; A4: `C59_powerlaw`, `C59_correction_refuted`, `C59_file_refuted` |
| C60 | A2: `C60_back`; A3: `C60_same_4d`, `C60_same_31`; A4: `C60_pole_refuted` |
| C61 | A2: `C61_secant_status`, `C61_secant_affine`, `C61_secant_refuted`; A3: `C61_bracket`, `C61_root`, `C61_end`, `C61_ridders_refuted` |
| C62 | A3: `C62_bounds`, `C62_times`, `C62_once`, `C62_twice_refuted`; A4: `C62_error_refuted` |
| C63 | A2: `C63_runs`, `C63_intensity`, `C63_spectrum`, `C63_channels`, `C63_stokes`, `C63_last`, `C63_first`, `C63_nothing`, `C63_hidden`, `C63_opaque_refuted`, `C63_hidden_redshift_refuted`, `C63_polarised_channels_refuted`, `C63_stokes_alone_refuted`, `C63_no_spectrometer_refuted`, `C63_impact_polarised_refuted` |
| C64 | A2: `C64_result`, `C64_end_inside`, `C64_once`, `C64_missed_refuted`, `C64_zero_step_refuted`, `C64_nearest`, `C64_time_refuted` |
| C65 | A3: `C65_result`, `C65_single_crossing`, `C65_path`, `C65_twice_refuted`, `C65_missed_refuted`, `C65_azimuth` |
| C66 | A3: `C66_terminates`, `C66_intervals`, `C66_returned`, `C66_returned_true`, `C66_opaque`, `C66_first`, `C66_time`, `C66_stops`, `C66_order`, `C66_users`, `C66_users_sum`, `C66_stuck`, `C66_outgoing`, `C66_secondary_refuted`, `C66_max_order_refuted`, `C66_null_refuted`, `C66_user2_refuted`, `C66_cartesian_refuted`, `C66_forward_refuted`, `C66_shadow_refuted`, `C66_again_refuted`, `C66_stuck_refuted` |
| C67 | A3: `C67_symmetric`, `C67_inverse`, `C67_forms`, `C67_forms_refuted`, `C67_limits`, `C67_krz_kerr`; A4: `C67_christoffel`, `C67_christoffel_krz_partial`, `C67_christoffel_krz_refuted`, `C67_christoffel_bg_partial`, `C67_christoffel_bg_refuted` |
| C68 | A3: `C68_unit`, `C68_unit_projected_partial`, `C68_unit_projected_refuted`, `C68_direction_refuted`; A4: `C68_geodesic`, `C68_geodesic_krz_partial`, `C68_direction` |
| C69 | A2: `C69_krz_asymptotics`, `C69_rz_parameters`, `C69_rz_copy_refuted`; A3: `C69_momentum`, `C69_energy_krz`, `C69_krz_powers`, `C69_krz_horizon`, `C69_krz_ranges`, `C69_k2pn_tied`, `C69_k2pn_tied_refuted`, `C69_k2pn_flat_refuted`, `C69_throw_refuted`, `C69_krz_copy_refuted`, `C69_krz_spin_refuted`, `C69_rn_stop_refuted`, `C69_rn_stop`; A4: `C69_potential` |
| C70 | A3: `C70_rmb`; A4: `C70_rms`, `C70_order`, `C70_retrograde_refuted` |
| C71 | A2: `C71_unique`; A4: `C71_spherical`, `C71_cartesian`, `C71_poloidal_partial`, `C71_poloidal_refuted`, `C71_parabolic_partial`, `C71_parabolic_refuted`, `C71_refused`, `C71_ipole`, `C71_ipole_cartesian_refuted` |
| C72 | A4: `C72_theta`, `C72_chi`, `C72_double`, `C72_turn`, `C72_gauge`, `C72_range`, `C72_refused`, `C72_electric_partial`, `C72_electric_refuted` |
| C73 | A2: `C73_page_accepts`, `C73_page_bolometric`, `C73_page_stokes`, `C73_page_last`, `C73_page_nothing`, `C73_bolometric`, `C73_bolometric_last`, `C73_bolometric_nothing`, `C73_profile_bolometric_partial`, `C73_profile_spectrum_partial`, `C73_profile_redshift_partial`, `C73_stochastic_bolometric_partial`, `C73_stochastic_spectrum_partial`, `C73_stochastic_redshift_partial`, `C73_stochastic_impact_partial`, `C73_stochastic_nothing`, `C73_page_spectrum_refuted`, `C73_page_hidden_refuted`, `C73_profile_null_refuted`, `C73_several_refuted`, `C73_profile_impact_refuted`, `C73_profile_channels_refuted`, `C73_noredshift_refuted` |
| C74 | A2: `C74_mdot_one_refuted`; A3: `C74_temperature`, `C74_temperature_refuted`; A4: `C74_law`, `C74_roots`, `C74_edge`, `C74_positive`, `C74_cartesian`, `C74_intensity`, `C74_inner`, `C74_inner_kept`, `C74_spin`, `C74_mdot_refuted`, `C74_retrograde_refuted`, `C74_inner_stale_refuted` |
| C75 | A0: `C75_transparent`, `C75_idle`, `C75_no_orphans`, `C75_all_leave`, `C75_terminate`, `C75_destroy`, `C75_size`, `C75_tool`, `C75_stale_refuted`, `C75_uncloned_refuted`, `C75_world_again_refuted`, `C75_spectrometer_refuted`, `C75_world_shared_refuted`, `C75_world_left_refuted` |
| C76 | A1: `C76_stale_matrix_refuted`; A3: `C76_alone`, `C76_safe`, `C76_history`, `C76_threads`, `C76_masked`, `C76_clone`, `C76_clone_refuted`, `C76_polar_refuted`, `C76_forward_refuted` |
| C77 | A2: `C77_loads`, `C77_atmosphere`, `C77_cutoffs_refuted`, `C77_atmosphere_layout_refuted`, `C77_atmosphere_above_refuted`, `C77_grid_size`; A3: `C77_safe`, `C77_directional`, `C77_directional_node`, `C77_directional_bounds`, `C77_xillver_azimuth`, `C77_xillver_flux`, `C77_above_table_refuted`, `C77_photon_orbit_refuted`, `C77_reload_refuted`, `C77_failed_load_refuted`, `C77_one_direction_refuted`, `C77_xillver_first_refuted`, `C77_xillver_negative_phase_refuted`; A4: `C77_xillver`, `C77_xillver_period`, `C77_xillver_wrap_refuted`, `C77_xillver_layout_refuted`, `C77_xillver_cartesian_refuted`, `C77_xillver_face_on_refuted`, `C77_xillver_no_lamp_refuted`, `C77_xillver_lamp`, `C77_xillver_outside` |
| C78 | A2: `C78_sizes`, `C78_clone`, `C78_opacity_refuted`, `C78_badfile_refuted`, `C78_ends_refuted`, `C78_opacity`, `C78_velocity_given`, `C78_emission_given`; A3: `C78_tabulated`, `C78_velocity`, `C78_missed`, `C78_seen`, `C78_impact`, `C78_stay`, `C78_short_refuted`, `C78_thin_refuted`, `C78_far_refuted`, `C78_length_refuted`, `C78_second_refuted`, `C78_repeat_refuted`, `C78_gap_refuted`, `C78_mirror_refuted`, `C78_edges` |
| C79 | A0: `C79_clone`, `C79_clone_refuted`, `C79_unloaded_refuted`; A1: `C79_thin_dates`; A2: `C79_within`, `C79_at_date`, `C79_thin`, `C79_thin_safe`, `C79_loaded`, `C79_grid`, `C79_jump_refuted`, `C79_retry_refuted`, `C79_norm_refuted`, `C79_grid_refuted`; A3: `C79_velocity`, `C79_rest`; A4: `C79_emission`, `C79_passing`, `C79_stale_refuted`, `C79_hole_refuted` |
| C80 | A0: `C80_vector`, `C80_save_refuted`; A1: `C80_index`, `C80_index_refuted`; A2: `C80_photon`, `C80_free`, `C80_free_proper`, `C80_massive`, `C80_massive_exact`, `C80_proper`, `C80_null_refuted`; A3: `C80_stored`, `C80_agree`, `C80_request_refuted`; A4: `C80_cartesian`, `C80_azimuth_refuted` |
| C81 | A3: `C81_general`, `C81_norm`, `C81_refuses`, `C81_axisymmetric`; A4: `C81_numerical`, `C81_kerr` |
| C82 | A2: `C82_slice`, `C82_after`, `C82_linear`, `C82_cubic`, `C82_constant`, `C82_nbeta`, `C82_before_refuted`, `C82_before`, `C82_derivatives_partial`, `C82_derivatives_refuted`, `C82_one_slice`, `C82_horizon`; A3: `C82_metric`, `C82_metric_index`, `C82_metric_at`, `C82_regular`, `C82_coefficient_partial`, `C82_stop`, `C82_stationary`, `C82_circular_refuted`; A4: `C82_christoffel`, `C82_dtheta`, `C82_dr_partial`, `C82_up_dr`, `C82_kepler`, `C82_circular`, `C82_potential`, `C82_metric_refuted`, `C82_up_refuted`, `C82_dr_refuted`, `C82_coefficient_refuted`, `C82_date_refuted` |
| C83 | A0: `C83_pixels`, `C83_accepted`, `C83_scene`, `C83_unknown`, `C83_sigfpe_refuted`, `C83_impact_options`, `C83_image`, `C83_image_rest_refuted`, `C83_command_image`, `C83_traces`, `C83_no_null`, `C83_usage`, `C83_unreadable`, `C83_asked`, `C83_zero_refuted`, `C83_half_refuted`, `C83_negative_step_refuted`, `C83_negative_refuted`, `C83_null_step_refuted`, `C83_null_step`, `C83_exponent_refuted`, `C83_largest_refuted`, `C83_refused`; A2: `C83_impact`, `C83_impact_other`, `C83_impact_twice` |
| C84 | A0: `C84_thick`; A2: `C84_kappa_floor`; A3: `C84_average`, `C84_thermal`, `C84_brems`; A4: `C84_average_between`, `C84_isotropic_refuted`, `C84_isotropic`, `C84_kirchhoff`, `C84_kirchhoff_polarised`, `C84_same_I`, `C84_same_I_power`, `C84_same_I_kappa`, `C84_increment`, `C84_thermal_positive`, `C84_thermal_linear`, `C84_overpolarised_refuted`, `C84_cold`, `C84_cold_refuted`, `C84_unchanged_partial`, `C84_unchanged_refuted`, `C84_density`, `C84_power_range`, `C84_low_frequency_refuted`, `C84_power_positive`, `C84_power_index`, `C84_power_polarised`, `C84_kappa_emission`, `C84_kappa_absorption`, `C84_kappa_index`, `C84_kappa_rotations`, `C84_kappa_fit_refuted`, `C84_kappa_polarised`, `C84_brems_positive`, `C84_brems_kirchhoff`, `C84_brems_increment`, `C84_brems_density` |
| C85 | A0: `C85_sphere_integral`, `C85_unknown_refused`, `C85_star_file`, `C85_star_no_position`, `C85_star_calls`, `C85_position_resets`; A1: `C85_sphere_emission`, `C85_null_spectrum`; A2: `C85_sphere_settings`, `C85_sphere_steps`, `C85_alpha`, `C85_isotropic_integrated_refuted`, `C85_star_reach`, `C85_second_position_refuted`, `C85_inflate`, `C85_inflate_default_refuted`, `C85_window`, `C85_window_order`, `C85_window_refuted`; A3: `C85_sphere_transmission`, `C85_transmission_composes`, `C85_fixed_position`, `C85_fixed_three`, `C85_fixed_at_rest`, `C85_fixed_velocity`, `C85_fixed_ergo_refuted`, `C85_free_velocity`, `C85_free_needs_position`, `C85_free_coord_refuted`, `C85_free_short`, `C85_free_uniform`, `C85_free_roundtrip_refuted`, `C85_free_derivative_refuted`, `C85_free_cartesian_refuted`, `C85_trace_in_sync`, `C85_trace_points`, `C85_trace_metric`, `C85_trace_value`, `C85_trace_gap_refuted`, `C85_spot_distance`, `C85_spot_beamed`, `C85_spot_refused`, `C85_spot_transparent`; A4: `C85_transmission_range`, `C85_inside`, `C85_value_defined`, `C85_harmonic_front_partial`, `C85_harmonic_behind_refuted`, `C85_no_skip`, `C85_fixed_reach`, `C85_fixed_moved_refuted`, `C85_star_reach_refuted`, `C85_star_skipped_refuted`, `C85_spot` |
| C86 | A2: `C86_plasmoid_rmax`, `C86_plasmoid_radius`, `C86_plasmoid_max_refuted`, `C86_plasmoid_velocity`, `C86_plasmoid_refused_refuted`, `C86_plasmoid_time_refuted`, `C86_plasmoid_settings`; A3: `C86_blob_settings`, `C86_blob_init`, `C86_blob_roundtrip_partial`, `C86_blob_roundtrip_refuted`, `C86_blob_velocity`, `C86_blob_three_sigma`, `C86_plasmoid_file_refuted`, `C86_plasmoid_field`, `C86_plasmoid_field_refuted`; A4: `C86_blob_refused_refuted`, `C86_blob_start`, `C86_blob_motion`, `C86_blob_cylinder`, `C86_blob_cone`, `C86_blob_no_radial`, `C86_blob_modulation`, `C86_blob_sigma_refuted`, `C86_plasmoid_path`, `C86_plasmoid_motion_refuted`, `C86_plasmoid_circular` |
| C87 | A1: `C87_profile_params`; A2: `C87_torus_beta_refuted`, `C87_line_unit_refuted`, `C87_line_velocity_refuted`, `C87_line_velocity`, `C87_pattern`; A3: `C87_torus_velocity`, `C87_torus_at_rest`, `C87_torus_norm_refuted`, `C87_surface_velocity`, `C87_surface_velocity_refuted`, `C87_thick`, `C87_thick_box`, `C87_thick_opening_refuted`, `C87_profile_unit`, `C87_profile_radial`, `C87_profile_plunge`, `C87_profile_circular`, `C87_profile_mixed`; A4: `C87_torus_drift`, `C87_torus_reversed_refuted`, `C87_torus_shape`, `C87_line`, `C87_pl`, `C87_pl_default_refuted`, `C87_thick_above_refuted`, `C87_profile_kerr`, `C87_profile_emission`, `C87_profile_default_refuted` |
| C88 | A2: `C88_thick_settings`, `C88_thick_checked`, `C88_thick_refused_refuted`, `C88_jet_settings`, `C88_jet_checked`, `C88_jet_refused_refuted`; A3: `C88_torus_settings`, `C88_torus_extent`, `C88_torus_rmax_refuted`, `C88_torus_step`, `C88_torus_velocity`, `C88_torus_velocity_refuted`, `C88_torus_light`, `C88_plasma_field`, `C88_thick_velocity`, `C88_thick_circular`, `C88_thick_accepted`, `C88_thick_cartesian_refuted`, `C88_jet_shape`, `C88_jet_unset_refuted`, `C88_jet_base`, `C88_jet_density`, `C88_jet_base_refuted`, `C88_jet_velocity`, `C88_jet_wall_refuted`, `C88_jet_lorentz_refuted`, `C88_jet_cartesian_refuted`; A4: `C88_layer`, `C88_torus_shape`, `C88_torus_spectrum_refuted`, `C88_thick_plasma`, `C88_thick_inner_refuted`, `C88_thick_light`, `C88_thick_polar`, `C88_thick_absorption_refuted`, `C88_jet_combined`, `C88_jet_field_refuted`, `C88_jet_light` |
| C89 | A1: `C89_mass`, `C89_masses`, `C89_mass_alone`; A2: `C89_answers`, `C89_history`, `C89_proper`, `C89_geodesics`, `C89_nested`, `C89_null`, `C89_stop`; A3: `C89_kind_refuted`, `C89_circular_refuted` |
| C90 | A3: `C90_newton`, `C90_velocity`, `C90_spherical`, `C90_circular`, `C90_circular_refuted`, `C90_used`, `C90_centre`, `C90_axis_refuted`; A4: `C90_conserved` |
| C91 | A0: `C91_tables`, `C91_one_grid`; A1: `C91_tables_refuted`; A3: `C91_shape`, `C91_settings`, `C91_field`, `C91_default_refuted`, `C91_velocity`, `C91_strength_refuted`; A4: `C91_plasma`, `C91_surface`, `C91_light`, `C91_cartesian_refuted` |
| C92 | A2: `C92_linear`, `C92_cubic`; A4: `C92_adaptive`, `C92_ends`, `C92_order_partial`, `C92_straight`, `C92_stop`, `C92_fuel`, `C92_steps` |
| C93 | A0: `C93_adaf_refuted`; A2: `C93_settings`, `C93_lambda`, `C93_change_refuted`, `C93_error_refuted`; A3: `C93_shape`, `C93_velocity`, `C93_inside` |
| C94 | A0: `C94_copy_refuted`; A2: `C94_fold`, `C94_ends`, `C94_table_refuted`, `C94_growth_refuted`; A4: `C94_settings`, `C94_read`, `C94_modes`, `C94_amplitude`, `C94_epicyclic`, `C94_surface`, `C94_rest`, `C94_centre`, `C94_thickness`, `C94_period`, `C94_velocity`, `C94_flow`, `C94_kepler`, `C94_orbit`, `C94_unit_refuted` |
| C95 | A0: `C95_sizes`, `C95_file`, `C95_write`, `C95_complete`, `C95_given`, `C95_intensity`, `C95_copy`, `C95_average`, `C95_refused`, `C95_copy_refuted`, `C95_name_refuted`; A1: `C95_file_refuted`, `C95_axis_refuted` |
| C96 | A2: `C96_settings`; A3: `C96_where`, `C96_velocity`, `C96_kerr`, `C96_cartesian_refuted`; A4: `C96_light` |

<!-- end of assumptions -->
