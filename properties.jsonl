{"id": "C01", "title": "Smart pointers free each object exactly once, and never touch it afterwards", "statement": "For any sequence of creating, copying, assigning, clearing and destroying Gyoto smart pointers, the reference count of every live object equals the number of smart pointers that hold it, the object is deleted exactly when the last holder goes away, and no operation touches a deleted object. Operations for which this fails (assigning from a raw pointer whose only owner is the target itself through a chain, copy-assigning a counted object) are exhibited.", "quantifier": "all finite histories of smart-pointer operations over any number of pointers and objects", "why_tests_cant": "a test runs a handful of histories; the failure needs a particular order of copies and destructions", "anchors": ["include/GyotoSmartPointer.h: SmartPointer, operator=, decRef", "lib/SmartPointer.C: SmartPointee"]}
{"id": "C02", "title": "Reference counting is safe under every thread interleaving", "statement": "When several threads concurrently copy and drop smart pointers to one object, whatever the interleaving of the mutex-protected counter updates, the object is deleted exactly once, by the thread that drops the last reference, and never while another thread still holds one.", "quantifier": "all thread counts, all per-thread programs that start holding a reference, all interleavings", "why_tests_cant": "tests see only the schedules the machine happens to produce", "anchors": ["lib/SmartPointer.C: incRefCount, decRefCount", "include/GyotoSmartPointer.h: decRef"]}
{"id": "C03", "title": "A change notification reaches exactly the hooked listeners", "statement": "After any sequence of hook and unhook calls on a teller (metric, spectrometer), a mutation notifies each currently hooked listener once per time it was hooked since its last unhook, and nobody else; one unhook silences a listener completely; a copy of a teller starts with no listeners. Unhooking oneself while being notified is exhibited as unsafe.", "quantifier": "all histories of hook/unhook/tell over any set of listeners", "why_tests_cant": "the listener list is history dependent and unbounded", "anchors": ["lib/Hooks.C: Teller::hook, unhook, tellListeners, ListenerItem::tell"]}
{"id": "C04", "title": "Pixel sets enumerate exactly the requested pixels, once each and in order", "statement": "Iterating a one-dimensional range or index list, a two-dimensional grid of two such sets, or a bucket pairing two of them, visits exactly the requested (i,j) pixels once each, in row-major order with i fastest, stops, and visits as many as the advertised size. The ranges for which size and iteration disagree (reversed bounds, wrapping) are exhibited.", "quantifier": "all ranges, steps, index lists and grids, with 64-bit wrap-around arithmetic", "why_tests_cant": "iteration is over unbounded sizes and wraps modulo 2^64", "anchors": ["lib/Screen.C: Screen::Range, Indices, Grid, Bucket, Empty"]}
{"id": "C05", "title": "Multi-threaded ray-tracing computes every pixel exactly once, in its own cell", "statement": "For any number of threads and any interleaving of their critical sections, Scenery::rayTrace computes each requested pixel exactly once, stores it in the output cell belonging to that pixel and no other, and the final output buffers equal those of a single-threaded run.", "quantifier": "all thread counts, all pixel grids, all interleavings of the workers", "why_tests_cant": "schedules cannot be enumerated by tests; the property is about all of them", "anchors": ["lib/Scenery.C: SceneryThreadWorker, rayTrace", "lib/Astrobj.C: Properties::operator+=, operator++"]}
{"id": "C06", "title": "MPI ray-tracing assigns every pixel exactly once and stores each answer in the right place", "statement": "Whatever the order in which worker processes return results, the manager hands out every requested pixel exactly once, writes each returned result at the location of the pixel that was sent to that worker, terminates after all results are in, and leaves no worker unanswered.", "quantifier": "all numbers of workers, all pixel lists and all arrival orders", "why_tests_cant": "arrival order is decided by the network", "anchors": ["lib/Scenery.C: rayTrace (MPI branch), mpiWorker"]}
{"id": "C07", "title": "Advancing the output record moves every requested quantity consistently and keeps the requested set", "statement": "Moving an output record by k pixels then by l pixels equals moving by k+l; null (unrequested) quantities stay unrequested; the set of requested quantities reported by the record never changes; two pixels at different offsets never share an output cell when the buffers have the documented strides.", "quantifier": "all records, all signed offsets, all spectral channel counts and strides", "why_tests_cant": "pointer arithmetic over unbounded offsets", "anchors": ["lib/Astrobj.C: Properties::operator+=, operator++, operator Quantity_t, init"]}
{"id": "C08", "title": "The output image cube has one disjoint plane per requested quantity and no spare", "statement": "For any combination of requested quantities, image resolution and number of spectral channels, the command-line tool lays the quantities out in the FITS cube on pairwise disjoint consecutive planes that exactly fill the allocated buffer, so no write of one quantity can land in another or outside.", "quantifier": "all 2^n subsets of quantities, all resolutions, all channel counts", "why_tests_cant": "the number of combinations times sizes is unbounded", "anchors": ["bin/gyoto.C: main (cube allocation)", "lib/Scenery.C: getScalarQuantitiesCount, getSpectralQuantitiesCount"]}
{"id": "C09", "title": "Requested quantities survive the round trip through their textual form", "statement": "Setting the requested quantities from the string produced by the getter yields the same set of quantities; every documented name is recognised; the scalar and spectral counts equal the number of distinct requested quantities of each sort.", "quantifier": "all subsets of quantities, any order of tokens", "why_tests_cant": "2^17 subsets and any token order", "anchors": ["lib/Scenery.C: requestedQuantitiesString, getScalarQuantitiesCount, getSpectralQuantitiesCount"]}
{"id": "C10", "title": "A worldline never loses, reorders or overruns its stored points", "statement": "For any history of setting initial conditions, integrating forwards or backwards to any date, expanding and resetting, the first/initial/last indices satisfy first<=initial<=last<capacity, every stored point keeps its value and order, and no store falls outside the allocated arrays.", "quantifier": "all histories of operations, all integrators (an arbitrary step oracle), all lengths", "why_tests_cant": "array growth depends on unbounded integration histories in both directions", "anchors": ["lib/Worldline.C: xAllocate, xExpand, setInitCoord, reInit, xFill, xStore"]}
{"id": "C11", "title": "Looking a date up in a worldline finds the bracketing stored points", "statement": "For stored dates in strictly increasing order and any list of requested dates within them, the search used to interpolate coordinates ends on adjacent stored points l,h with date[l] <= requested < date[h] (or an exact hit), regardless of the order of requests.", "quantifier": "all stored date arrays, all request lists, all carried-over search states", "why_tests_cant": "binary search correctness is an all-sizes statement and the bracket is carried from one request to the next", "anchors": ["lib/Worldline.C: getCoord (dates)"]}
{"id": "C12", "title": "Resampling a worldline segment covers it exactly with steps no larger than requested", "statement": "The refined copy of one segment starts at one end and finishes at the other, has monotonic dates in between, and no step is larger than the requested maximum, whichever direction is asked for.", "quantifier": "all segment lengths, maximum steps and directions", "why_tests_cant": "real-valued and unbounded number of points", "anchors": ["lib/Worldline.C: Worldline(Worldline*, size_t, int, double)", "lib/Photon.C: Refined"]}
{"id": "C13", "title": "Step limits are always honoured", "statement": "The maximum step returned for a position never exceeds the requested maximum, the global maximum, or the fraction of the distance to the centre, except when the minimum step forces it; it is never below the minimum step.", "quantifier": "all positions, limits and coordinate kinds", "why_tests_cant": "continuous inputs", "anchors": ["lib/Metric.C: deltaMax", "lib/Worldline.C: deltaMax"]}
{"id": "C14", "title": "Angle normalisation returns the same point of space, in canonical range", "statement": "Normalising the spherical coordinates of a photon terminates and yields theta in [0,pi] and phi in [0,2pi) describing the same point in space, with the angular velocity adjusted so that the Cartesian velocity is unchanged.", "quantifier": "all real angles and velocities", "why_tests_cant": "continuous inputs and a data-dependent loop count", "anchors": ["lib/Worldline.C: checkPhiTheta", "lib/Screen.C: getRayTriad"]}
{"id": "C15", "title": "Root bracketing on a photon path converges and stays inside the bracket", "statement": "Bisection for a threshold crossing stops, returns a date inside the initial bracket at which the object function is below the threshold, within the date tolerance of a point where it is not.", "quantifier": "all object functions (as oracles), all brackets", "why_tests_cant": "needs all functions, including discontinuous ones", "anchors": ["lib/Photon.C: findValue, findMin"]}
{"id": "C16", "title": "Transmission along a ray is the product of the individual transmissions", "statement": "After resetting and then passing through any sequence of absorbing cells, the transmission of every channel is the product of the per-cell transmissions of that channel, channels do not interfere, it never leaves [0,1] if all factors are in it, and the reported maximum is the largest channel value.", "quantifier": "all numbers of channels, all sequences of cells", "why_tests_cant": "unbounded sequences", "anchors": ["lib/Photon.C: transmit, resetTransmission, getTransmission, getTransmissionMax"]}
{"id": "C17", "title": "What is set through a property is what is read back", "statement": "For every object class, setting a property by name and getting it by the same name returns the value; for boolean properties the negative name sets and reads the complement; other properties are unaffected; unknown names are reported and change nothing; a property defined in a derived class hides the parent's of the same name.", "quantifier": "all property tables (any inheritance depth), all names, all values", "why_tests_cant": "table contents and inheritance chains are arbitrary", "anchors": ["lib/Object.C: set, get, property, getPropertyNames", "lib/Property.C"]}
{"id": "C18", "title": "Nested parameter paths reach exactly the addressed child object", "statement": "Setting parameter A::B::...::Name changes property Name of the child reached through A, B, ..., and nothing else; it fails without any change if a component is missing, unset or not an object.", "quantifier": "all path lengths and object trees", "why_tests_cant": "unbounded nesting", "anchors": ["lib/Object.C: setParameter(name, content, unit)"]}
{"id": "C19", "title": "Values keep their type and content through copy and assignment", "statement": "Copying or assigning a generic value and reading it back with the type it was created with returns the original content, and reading it as an incompatible type is an error instead of garbage.", "quantifier": "all value types and contents, all chains of assignments", "why_tests_cant": "all types crossed with all assignment histories", "anchors": ["lib/Value.C: Value::operator=, casts"]}
{"id": "C20", "title": "Class lookup by kind and plug-in returns the most recent matching registration", "statement": "Asking for a kind, optionally restricted to a list of plug-ins, returns the most recent registration of that kind in the first listed plug-in that has one (in any plug-in, when none is listed); plug-ins required by the list are loaded, 'fallback:' ones only if needed; asking for a kind no plug-in provides is an error (or null when so requested).", "quantifier": "all registration histories, kinds and plug-in lists", "why_tests_cant": "registration order is arbitrary", "anchors": ["lib/Register.C: Entry::getSubcontractor", "include/GyotoRegister.h: GYOTO_GETSUBCONTRACTOR"]}
{"id": "C21", "title": "The plug-in list is parsed into the names and failure policies it spells", "statement": "Splitting the comma separated list of default plug-ins loads every named plug-in once in order, with 'nofail:' and 'nowarn:' prefixes applied to that entry only.", "quantifier": "all lists of plug-in names", "why_tests_cant": "string inputs are unbounded", "anchors": ["lib/Register.C: Register::init", "lib/Utils.C: split"]}
{"id": "C22", "title": "Splitting text on delimiters loses nothing and invents nothing", "statement": "Splitting a string returns exactly its maximal non-empty delimiter-free pieces in order: no piece contains a delimiter, and joining delimiter-free non-empty words then splitting returns those words.", "quantifier": "all strings and delimiter sets", "why_tests_cant": "all strings", "anchors": ["lib/Utils.C: split"]}
{"id": "C23", "title": "Number arrays in XML files are read back with their length", "statement": "Writing a list of numbers as parameter text and parsing it returns the same list; when a maximum length is given, more numbers than allowed are detected, never written past the array.", "quantifier": "all lists and maximum lengths", "why_tests_cant": "all lengths", "anchors": ["lib/Factory.C: parseArray, setParameter"]}
{"id": "C24", "title": "Objects shared in a scene stay shared in the file and on reading", "statement": "When a scene is written, the metric, screen and astrobj each appear at most once and writing a different one in the same file is an error; when it is read, all users of the metric get the same object however often it is asked for.", "quantifier": "all write and read request sequences", "why_tests_cant": "histories of requests", "anchors": ["lib/Factory.C: metric, astrobj, screen (readers and writers)"]}
{"id": "C25", "title": "Sky coordinates and space coordinates convert back and forth exactly", "statement": "The screen base vectors form an orthonormal basis for any inclination, position angle and argument; converting a space position to sky coordinates and back returns the same position (spherical or Cartesian).", "quantifier": "all viewing geometries and positions", "why_tests_cant": "continuous inputs", "anchors": ["lib/Screen.C: computeBaseVectors, coordToSky, skyToCoord, coordToXYZ"]}
{"id": "C26", "title": "The observer position set is the observer position read", "statement": "Setting the screen from an observer four-position and reading the observer position back gives the same time, distance and angles, for every metric unit length.", "quantifier": "all observer positions", "why_tests_cant": "continuous inputs", "anchors": ["lib/Screen.C: setObserverPos, getObserverPos"]}
{"id": "C27", "title": "Unit conversions invert each other", "statement": "For each supported unit, converting to the internal unit and back returns the original value, unknown units are rejected in both directions alike, and the accepted unit names coincide.", "quantifier": "all values and all unit names", "why_tests_cant": "all strings and reals; setter and getter tables can drift apart", "anchors": ["lib/Converters.C: To*/From*", "lib/Screen.C: fieldOfView"]}
{"id": "C28", "title": "Spectrometer channels tile the requested band", "statement": "A uniform spectrometer with n samples has n+1 boundaries spanning exactly the band, channel i lies between boundaries i and i+1, adjacent channels share a boundary, widths are non-negative and add up to the band width, midpoints lie inside their channel; asking for the band in a unit after setting it in that unit returns it.", "quantifier": "all sample counts, bands and scale kinds", "why_tests_cant": "all n and real bands", "anchors": ["lib/UniformSpectrometer.C: reset_, band, nSamples"]}
{"id": "C29", "title": "A composite spectrometer is always the concatenation of its parts", "statement": "After any history of appending, removing and mutating sub-spectrometers, the sample, boundary, width, midpoint and channel-index tables equal the concatenation of those of the current parts, and every channel index points at the boundaries of its own part.", "quantifier": "all histories over any number of parts", "why_tests_cant": "histories and offsets are unbounded", "anchors": ["lib/ComplexSpectrometer.C: append, remove, tell"]}
{"id": "C30", "title": "Composite objects behave as lists", "statement": "For composite metrics, objects and spectrometers, append adds at the end, remove(i) deletes element i and keeps the order of the others, indexing returns the i-th element, out-of-range access is an error and never touches memory beyond the array.", "quantifier": "all histories of append/remove/index", "why_tests_cant": "histories are unbounded", "anchors": ["lib/ComplexMetric.C, lib/ComplexAstrobj.C, lib/ComplexSpectrometer.C: append, remove, operator[]"]}
{"id": "C31", "title": "Contravariant metric coefficients are the inverse of the covariant ones", "statement": "For the Kerr metric in Boyer-Lindquist and Kerr-Schild coordinates and flat space, the product of the matrices returned by gmunu and gmunu_up is the identity wherever the metric is regular; the matrix and coefficient forms agree; the metric is symmetric.", "quantifier": "all spins and positions outside the singular set", "why_tests_cant": "continuous inputs", "anchors": ["lib/KerrBL.C: gmunu, gmunu_up", "lib/KerrKS.C: gmunu, gmunu_up", "lib/Minkowski.C: gmunu"]}
{"id": "C32", "title": "Generic matrix inversion inverts", "statement": "The generic 4x4 inversion used by metrics without their own inverse returns the inverse of every invertible matrix, and the specialised circular one does so for every invertible circular symmetric matrix.", "quantifier": "all invertible real 4x4 matrices", "why_tests_cant": "continuous inputs; pivoting has many branches", "anchors": ["lib/Utils.C: matrix4Invert, matrix4CircularInvert"]}
{"id": "C33", "title": "Christoffel symbols are those of the metric", "statement": "The Christoffel symbols returned by flat space and Kerr (Boyer-Lindquist) equal one half of the inverse metric contracted with the derivatives of the metric coefficients, at every regular point, are symmetric in the lower indices, and matrix and coefficient forms agree; the generic default assembles the same formula from any Jacobian.", "quantifier": "all spins and positions outside the singular set", "why_tests_cant": "continuous inputs; the check is between a formula and derivatives", "anchors": ["lib/Minkowski.C: christoffel", "lib/KerrBL.C: christoffel", "lib/Metric.C: christoffel"]}
{"id": "C34", "title": "Four-velocity normalisation produces the right norm", "statement": "Making a photon's tangent vector null yields a vector of zero norm with the same spatial part; normalising a four-velocity yields norm -1 with the same three-velocity when it is subluminal, and reports otherwise.", "quantifier": "all metrics (any symmetric matrix), positions and velocities", "why_tests_cant": "continuous inputs", "anchors": ["lib/Metric.C: nullifyCoord, SysPrimeToTdot, normalizeFourVel"]}
{"id": "C35", "title": "Projection and Gram-Schmidt yield an orthonormal local frame", "statement": "Projecting a vector orthogonally to a non-null one gives a vector orthogonal to it; the observer tetrad built from any time-like velocity and independent directions is orthonormal with the right signs.", "quantifier": "all symmetric metrics and vectors", "why_tests_cant": "continuous inputs", "anchors": ["lib/Metric.C: ScalarProd, norm, projectFourVect, GramSchmidt, observerTetrad"]}
{"id": "C36", "title": "Default emission, transmission and radiative transfer functions always terminate and agree", "statement": "For an object that provides any subset of the five interchangeable emission/transmission methods, calling any of them in any order and any number of times terminates, uses the provided method documented for that case, and the answer does not depend on previous calls.", "quantifier": "all subsets of overridden methods, all call histories, all frequency counts", "why_tests_cant": "mutual recursion guarded by a history-dependent flag word", "anchors": ["lib/Astrobj.C: transmission, emission, radiativeQ"]}
{"id": "C37", "title": "Default metric functions always terminate and agree", "statement": "For a metric that provides any subset of gmunu_up (matrix or coefficient), jacobian, their combination and christoffel (matrix or coefficient), calling any of them in any order terminates without reading uninitialised data, uses the provided ones, and the result does not depend on previous calls.", "quantifier": "all subsets of overridden methods, all call histories", "why_tests_cant": "mutual recursion guarded by a history-dependent flag word", "anchors": ["lib/Metric.C: gmunu_up, jacobian, gmunu_up_and_jacobian, christoffel"]}
{"id": "C38", "title": "Grid interpolation stays inside the grid and is exact at the nodes", "statement": "Interpolating tabulated data reproduces the table at the nodes, lies between the values of the surrounding nodes elsewhere, and never reads outside the table.", "quantifier": "all grids, dimensions, query points and boundary conditions", "why_tests_cant": "continuous queries, unbounded dimensions; failures sit on edges", "anchors": ["lib/GridData2D.C: getIndices, interpolate", "lib/Astrobj.C: interpolate, interpNd, getIndice"]}
{"id": "C39", "title": "Pattern-disk tables stay consistent with their dimensions", "statement": "After any history of loading intensity, opacity, velocity and radius tables and copying the disk, each table present has the size given by the current dimensions, and emission and velocity queries inside the disk read only cells of these tables.", "quantifier": "all histories of table updates and all query positions", "why_tests_cant": "histories of updates with changing dimensions", "anchors": ["lib/PatternDisk.C: copyIntensity, copyOpacity, copyVelocity, copyGridRadius, getIndices, emission"]}
{"id": "C40", "title": "3+1 and 4-dimensional states convert back and forth", "statement": "Converting a geodesic state to the 3+1 form and back without stepping returns the same state, and theta/phi normalisation in 3+1 form keeps the same trajectory.", "quantifier": "all states, lapse and shift values", "why_tests_cant": "continuous inputs", "anchors": ["lib/WorldlineIntegState.C: Boost::nextStep, doStep"]}
{"id": "C41", "title": "The polarisation basis stays a basis", "statement": "Re-orthonormalising the polarisation basis returns two unit vectors orthogonal to each other and to the wave vector, without exchanging them.", "quantifier": "all states and metrics", "why_tests_cant": "continuous inputs", "anchors": ["lib/WorldlineIntegState.C: reorthonormalizeBasis", "lib/Worldline.C: checkBasis"]}
{"id": "C42", "title": "Polarised transfer matrices do what they stand for", "statement": "Rotating emission coefficients preserves total and circular intensities and linear polarisation degree and composes as a rotation. The transmission matrix of a stretch of path carries every solution of the polarised transfer equation through that stretch, two stretches compose, and a medium that does not amplify keeps Stokes vectors physical without increasing the intensity. The emission matrix turns emission coefficients into what the stretch emits, exactly in the general regime and to one part in a million of emission times length in the thin one. A medium without polarised coefficients is plain exponential absorption.", "quantifier": "all coefficients, angles and path lengths", "why_tests_cant": "continuous inputs; the matrices must agree with a differential equation for every coefficient, angle and length", "anchors": ["lib/Astrobj.C: rotateJs, Omatrix, Pmatrix"]}
{"id": "C43", "title": "Integrator names read back can be set again", "statement": "For every integrator that can be selected by name, the name reported afterwards selects the same integrator, also through a copy of the worldline and through a scene file.", "quantifier": "all integrator kinds and copy histories", "why_tests_cant": "table round trip over all entries and histories", "anchors": ["lib/WorldlineIntegState.C: Boost::Boost, kind, clone", "lib/Worldline.C: integrator"]}
{"id": "C44", "title": "Only unmasked pixels are ray-traced and the mask always matches the image", "statement": "A mask applies to pixel (i,j) at row-major position; changing the resolution drops a mask of another size; without mask all pixels are traced.", "quantifier": "all histories of mask and resolution changes, all pixels", "why_tests_cant": "histories of setters", "anchors": ["lib/Screen.C: mask, resolution, operator()"]}
{"id": "C45", "title": "Verbosity is restored when leaving debug mode", "statement": "Entering and leaving debug mode restores the previous verbosity for every history of verbosity and debug changes.", "quantifier": "all histories", "why_tests_cant": "global state history", "anchors": ["lib/Utils.C: debug, verbose"]}
{"id": "C46", "title": "Relative file names resolve against the scene file", "statement": "Absolute paths are kept, relative ones are resolved against the directory of the scene file, and resolving twice equals resolving once.", "quantifier": "all path strings", "why_tests_cant": "all strings", "anchors": ["lib/Factory.C: fullPath"]}
{"id": "C47", "title": "Numerical integration of spectra is exact for linear spectra and independent of the band's orientation", "statement": "Integrating a spectrum over a band by successive refinement equals the composite trapezoid rule at every refinement, is exact for affine spectra, and does not depend on the order of the band limits.", "quantifier": "all spectra (as oracles), bands and refinement depths", "why_tests_cant": "all functions and depths", "anchors": ["lib/Spectrum.C: integrate", "lib/Astrobj.C: integrateEmission"]}
{"id": "C48", "title": "Objects that listen to a metric are hooked exactly once, to their current metric", "statement": "After any sequence of creating, copying and destroying objects that hold a metric and of setting their metric, mutating a metric notifies each live object whose current metric it is exactly once, and no other object; nothing destroyed is ever notified.", "quantifier": "all sequences of creations, copies, destructions, metric assignments (accepted or refused) and mutations", "why_tests_cant": "unbounded histories over arbitrarily many objects and metrics", "anchors": ["lib/Worldline.C: Worldline copy constructor, destructor, metric", "lib/PolishDoughnut.C: metric", "lib/OscilTorus.C: metric", "lib/PageThorneDisk.C: metric", "lib/XillverReflection.C: metric", "lib/Jet.C: metric", "lib/Shift.C: subMetric"]}
{"id": "C49", "title": "An object is thread-safe exactly when everything it is made of is", "statement": "Asking an object whether it is thread-safe answers yes exactly when its own class and the classes of all objects reachable from it through metric, object, spectrum and spectrometer properties are thread-safe.", "quantifier": "all object graphs of any depth and any property tables", "why_tests_cant": "arbitrary trees of objects", "anchors": ["lib/Object.C: Object::isThreadSafe", "lib/Scenery.C: Scenery::isThreadSafe, rayTrace"]}
{"id": "C50", "title": "All parts of a composite object live in the metric of the composite", "statement": "After any history of appending and removing parts and setting the metric of a composite object, every part has the composite's metric.", "quantifier": "all histories", "why_tests_cant": "unbounded histories", "anchors": ["lib/ComplexAstrobj.C: Complex::metric, append, remove"]}
{"id": "C51", "title": "A composite object is hit exactly when one of its parts is, and its parts are asked in order along the ray", "statement": "The composite is hit iff some part is; a single part hit gets the data for the whole interval; if several are hit, each of them and no other gets the data exactly once for every interval of the refined ray, the intervals farther along first; its radius limit is the largest and its step limit the smallest of those of its parts.", "quantifier": "all lists of parts, all hit patterns and refinements", "why_tests_cant": "unbounded numbers of parts and refinement points", "anchors": ["lib/ComplexAstrobj.C: Complex::Impact, rMax, deltaMax"]}
{"id": "C52", "title": "Each screen direction gives the photon it designates", "statement": "For every angle kind, offset and pair of screen angles, the photon direction is a unit vector opposite to the direction asked for; pixels are evenly spaced and symmetric within the field of view; a far observer is moved along the line of sight with light travel time; the tangent vector is null; spherical and Cartesian coordinates give the same direction; the centre of the screen looks at the origin.", "quantifier": "all viewing geometries, screen angles, resolutions, metrics", "why_tests_cant": "continuous inputs, unbounded resolutions", "anchors": ["lib/Screen.C: getRayTriad"]}
{"id": "C53", "title": "The initial polarisation basis is orthonormal, right-handed and transverse to the photon", "statement": "The two polarisation directions attached to a photon of an observer at infinity are unit, orthogonal to each other and to the photon, with the documented orientation, in spherical and Cartesian coordinates.", "quantifier": "all screen directions and viewing geometries", "why_tests_cant": "continuous inputs", "anchors": ["lib/Screen.C: getRayTriad (compute_polar_basis)"]}
{"id": "C54", "title": "Screen angles and names read back as they were set", "statement": "Field of view and offsets set in a unit read the same in that unit; angle and observer kinds set by name read back as that name, and other names are refused.", "quantifier": "all values, units and names", "why_tests_cant": "all strings and values", "anchors": ["lib/Screen.C: fieldOfView, dangle1, dangle2, PALN, inclination, argument, anglekind, observerKind"]}
{"id": "C55", "title": "The equation of motion conserves scalar products, energy and angular momentum", "statement": "Along every curve that follows the equation of motion of Kerr (Boyer-Lindquist or Kerr-Schild) or flat space, all scalar products between the tangent and the vectors carried along it, the energy and the axial angular momentum stay constant.", "quantifier": "all curves on any parameter interval on which the coordinates are regular, any number of vectors carried along, all spins", "why_tests_cant": "a continuum of curves; an integration shows it only up to the error of the integrator", "anchors": ["lib/Metric.C: Generic::diff, christoffel", "lib/KerrBL.C: christoffel, ScalarProd", "lib/KerrKS.C: gmunu_up_and_jacobian", "lib/Minkowski.C: christoffel"]}
{"id": "C56", "title": "Kerr geodesics in momentum form are geodesics", "statement": "In Kerr (Boyer-Lindquist coordinates) the library integrates positions and momenta. The momenta attached to a velocity are its covariant components and give the velocity back; the recorded constants are the energy, angular momentum, mass and Carter constant of the particle. Any curve whose derivative is the one the library computes is a geodesic, keeps its norm and its Carter constant. The correction applied after each step leaves energy and angular momentum as recorded, restores the Carter constant to one part in a million and the norm, or gives up in the stated ways.", "quantifier": "every spin, every position outside the coordinate singularities, every velocity, every curve and interval", "why_tests_cant": "A trajectory test samples a few initial conditions and compares within a tolerance; the claim is an identity in position, momenta and spin and a conservation law along every solution.", "anchors": ["lib/KerrBL.C: KerrBL::diff, CheckCons, Normalize4v, MakeCoord, MakeMomentum, computeCst"]}
{"id": "C57", "title": "Observers in Kerr", "statement": "Outside the horizon of a Kerr metric in Boyer-Lindquist coordinates: nullifying a vector agrees with the generic metric code and gives a null vector; the observer of zero angular momentum is unit, future directed and orthogonal to the surfaces of constant time; lapse and shift rebuild the metric; the frame attached to any timelike observer is orthonormal, oriented along -phi, -theta, -r.", "quantifier": "every spin, every position outside the horizon and off the axis, every timelike velocity", "why_tests_cant": "The closed formulas divide by and take roots of position-dependent quantities; a test covers finitely many positions, the claim is an identity for all.", "anchors": ["lib/KerrBL.C: KerrBL::nullifyCoord, zamoVelocity, computeNBeta, observerTetrad"]}
{"id": "C58", "title": "Circular orbits in Kerr", "statement": "The velocity returned for a circular orbit in Kerr is a unit future-directed vector along phi, and in the equatorial plane the circle it describes is a geodesic, turning in the requested direction.", "quantifier": "every spin, radius outside the horizon, direction of rotation", "why_tests_cant": "Being a geodesic is a differential identity in radius and spin.", "anchors": ["lib/KerrBL.C: KerrBL::circularVelocity"]}
{"id": "C59", "title": "A spectrum's value follows its last settings and survives a scene file", "statement": "After any history of settings a power law is Constant*nu^Exponent between its two cut-offs (given in any order) and zero outside, with the last value of each setting, and writing and reading it back gives the same spectrum. A black body whose temperature is set and then colour-corrected once is Planck's law at the corrected temperature divided by the fourth power of the correction, whatever was set before.", "quantifier": "all histories of settings, all frequencies", "why_tests_cant": "histories of setters with hidden accumulated state, continuous frequencies", "anchors": ["lib/PowerLawSpectrum.C: cutoff, operator()", "lib/BlackBodySpectrum.C: temperature, colorCorrection, operator()"]}
{"id": "C60", "title": "A step on request and a step of the integration agree", "statement": "Converting a position and velocity to the 3+1 variables and back gives the same position and velocity wherever the lapse and dt/dtau do not vanish. With the 4D equations, a single step done on request gives exactly the coordinates of a fixed-step step of the integration, and the proper time advances by the step. With the 3+1 equations the same holds in Cartesian coordinates, and in spherical coordinates as long as the angles stay in range, the proper time then advancing by the step over the new dt/dtau. It fails across the pole with the 3+1 equations (exhibited).", "quantifier": "all lapses and shifts, all steppers, all coordinates and steps", "why_tests_cant": "tests run a few geodesics with one stepper; agreement must hold for every stepper and every point, including polar crossings", "anchors": ["lib/WorldlineIntegState.C: Boost::nextStep, Boost::doStep", "lib/Worldline.C: Worldline::checkPhiTheta"]}
{"id": "C61", "title": "Root finding ends, and what it returns is a root to the stated tolerance", "statement": "For every function, continuous or not, with opposite signs at the two ends, the bracketing root finder ends after a number of turns logarithmic in the length of the interval and returns a number between the ends where the function is below 1e-9 or within 1e-5 of which it changes sign; for a continuous function there is then a root within 1e-5. A root at one end is no obstacle unless the middle is one too. The secant method ends after at most 20 turns, reports 1 only for two distinct numbers with the same value, reports 0 whenever the function is tiny at the result, and solves affine equations at once. Exhibited: unbracketed intervals give NaN; status 0 without any root.", "quantifier": "all real functions, all intervals, all numbers of turns", "why_tests_cant": "tests evaluate a few smooth functions; the loop has no iteration bound, so its termination and the quality of the result must be shown for every function", "anchors": ["lib/Functors.C: Double_Double_const::ridders, Double_Double_const::secant", "lib/PolishDoughnut.C: lambda, angmomrinner (callers)"]}
{"id": "C62", "title": "Translating the times of a tabulated disk moves its bounds and its table together", "statement": "Setting timeTranslation_inMunit on a disk read from a file moves the time bounds and the times of the table by the same amount, the one asked for last, whatever was asked before and whenever the file is loaded.", "quantifier": "all histories of loads and translations", "why_tests_cant": "depends on the whole history; a single translation behaves", "anchors": ["lib/ThinDiskGridIntensity.C: timeTranslation_inMunit, fitsRead", "lib/FlaredDiskSynchrotron.C: timeTranslation_inMunit"]}
{"id": "C63", "title": "Light adds up along a ray as radiative transfer says", "statement": "For each photon, the intensity, each spectral channel, each channel average and each Stokes parameter that is asked for is the sum over the hits of what each emits, at the frequency and over the length its emitter measures, attenuated by all hits nearer to the observer and scaled by the third (channel averages: fourth) power of the ratio of observed to emitted frequency, converted to the unit asked for. Nothing behind opaque matter counts. The first hit gives the impact coordinates. Quantities not asked for are not touched.", "quantifier": "all objects (emission, absorption and metric are arbitrary functions), all sequences of hits, all sets of requested quantities, all spectrometers", "why_tests_cant": "the number of hits along a ray and the functions of the object are unbounded; a test sees one object and a few rays", "anchors": ["lib/Astrobj.C: Generic::processHitQuantities", "lib/Photon.C: Photon::transmit, transfer, getTransmission, getTransmissionMax"]}
{"id": "C64", "title": "What part of a ray is inside an object whose shape is a function", "statement": "For an object given by a function (inside where it does not exceed the critical value) and an interval of a ray, the search for the intersection ends. If it reports a hit, the contributions it makes run backwards in time without overlapping, are no longer than DeltaInObj, and each begins and ends inside the object and within the interval; the stretch looked at starts and ends at the ends of the interval when these are inside, and otherwise within the date tolerance of a date outside. An interval with an end inside is a hit. When the ray passes through the object once, the contributions of a hit cover the stretch exactly, their durations add up to its length, and nothing inside the object is further from it than the tolerance. After misses, MinDistance is the least value seen and FirstMinDist the value at the first local minimum.", "quantifier": "all functions of the date, critical and safety values, steps, intervals, and sequences of misses", "why_tests_cant": "The function along the ray is arbitrary: where bisection and marching stop depends on its values at dates no test can enumerate.", "anchors": ["lib/StandardAstrobj.C: Standard::Impact", "lib/Photon.C: Photon::findMin, Photon::findValue"]}
{"id": "C65", "title": "Where a ray crosses a thin disk", "statement": "For a thin disk in spherical or Cartesian coordinates and an interval of a ray, the search for the crossing ends without an error. A hit is at a date of the interval where the distance to the axis is between the inner and outer radii and next to which, within the date tolerance, the ray is not strictly on one side of the plane. Ends strictly on the same side give no hit. For a ray that crosses the plane once, the date of the hit is within the tolerance of the crossing, and there is a hit when the ray near the crossing is within the radii (and an end is closer than twice the outer radius) and none when it is outside. The path length used for radiative transfer is the thickness divided by the cosine of the inclination of the ray.", "quantifier": "all paths, disks, intervals, in both kinds of coordinates, angles in any range", "why_tests_cant": "Paths are arbitrary functions, and angles may have been brought out of their usual range any number of turns.", "anchors": ["lib/ThinDisk.C: ThinDisk::Impact, operator(), projectedRadius, sphericalPhi"]}
{"id": "C66", "title": "Ray tracing of one pixel", "statement": "Integrating a fresh ray backwards in spherical or Cartesian coordinates, with any integrator and any object, ends without an error (orders being followed only in spherical coordinates, with a record, and User2 and User3 requested with User1). The points are those of the integrator, at most MaxIter of them, and only the last may be beyond the limit of time. Each interval whose newer end is within the limiting radius is shown to the object once and in order, no other is, none after the transmission fell below 1e-6, and none after the first hit when no record is kept. The integration stops only because the integrator or metric stopped, the ray leaves, became opaque, passed the limit of time or of iterations, or met a requested limit. The value returned says whether the object was hit. The image order never exceeds the number of crossings of the equatorial plane or of turning points of theta, and is that number (up to 3) for a ray that crosses the plane once between turning points; User1, User1+User2 and User1+User2+User3 are then the light received up to order 0, 1 and 2.", "quantifier": "all integrators (sequences of steps), objects (sequences of answers), initial points, limits and sets of requested quantities", "why_tests_cant": "The property ranges over all trajectories and answers of the object; the number of steps is unbounded.", "anchors": ["lib/Photon.C: Photon::hit"]}
{"id": "C67", "title": "Other analytic metrics: coefficients, inverse, Christoffel symbols", "statement": "For the Reissner-Nordstrom, harmonic Schwarzschild, Rezzolla-Zhidenko, Hayward, Konoplya-Rezzolla-Zhidenko, Chern-Simons and Balasin-Grumiller metrics the coefficients are symmetric; the contravariant coefficients are the inverse of the covariant ones; the function returning one coefficient agrees with the one filling the matrix; the Christoffel symbols are those of the coefficients wherever the coordinates are regular; and without deformation, charge or rotation the coefficients are those of Kerr, Schwarzschild or flat space.", "quantifier": "all parameters and all positions where the coordinates are regular", "why_tests_cant": "The property is an identity between real functions of the position and the parameters; a test evaluates it at finitely many points.", "anchors": ["lib/ReissnerNordstrom.C", "lib/SchwarzschildHarmonic.C", "lib/RezzollaZhidenko.C", "lib/Hayward.C", "lib/KonoplyaRezzollaZhidenko.C", "lib/ChernSimons.C", "lib/BalasinGrumiller.C"]}
{"id": "C68", "title": "Circular orbits of the other metrics", "statement": "The velocity that circularVelocity returns has norm -1, points to the future and has only t and phi components; in the equatorial plane the circle it describes is a geodesic; and it turns in the direction asked for.", "quantifier": "all parameters, positions and both directions, for Reissner-Nordstrom, harmonic Schwarzschild, Rezzolla-Zhidenko, Hayward, Konoplya-Rezzolla-Zhidenko and Chern-Simons", "why_tests_cant": "The property ranges over all radii and parameters.", "anchors": ["circularVelocity in lib/ReissnerNordstrom.C, SchwarzschildHarmonic.C, RezzollaZhidenko.C, Hayward.C, KonoplyaRezzollaZhidenko.C, ChernSimons.C"]}
{"id": "C69", "title": "Angular momentum, potential and parameters of the metrics", "statement": "getSpecificAngularMomentum is -u_phi/u_t on the circular orbit; getPotential is -ln|u_t| for a fluid on circular orbits with that angular momentum; the Keplerian energy and angular momentum of Konoplya-Rezzolla-Zhidenko are -u_t and u_phi; parameters that a mutator takes are stored as given, padded with zeros, within the accepted range, and nothing else changes; the stored powers of the spin are its powers after any sequence of mutators and copies; the quadrupole of Kerr2PN stays tied to the spin; Reissner-Nordstrom stops integration at its horizon.", "quantifier": "all parameters, positions, lists of values and sequences of mutators", "why_tests_cant": "Real functions of the position, and unbounded sequences of mutators.", "anchors": ["lib/KerrBL.C: getPotential, getSpecificAngularMomentum", "lib/Hayward.C", "lib/ReissnerNordstrom.C", "lib/RezzollaZhidenko.C: aparam, bparam, getPotential", "lib/KonoplyaRezzollaZhidenko.C: deltashorizon, deltasasymptotics, KeplerianEnergy", "lib/Kerr2PN.C"]}
{"id": "C70", "title": "Marginally stable and marginally bound orbits of Kerr", "statement": "For a spin between 0 and 1, at the radius getRms() a circular orbit exists and the energy of circular orbits as a function of the radius is stationary; at getRmb() the energy of the circular orbit is that of a body at rest at infinity; and getRmb() is below getRms().", "quantifier": "all spins between 0 and 1 (rmb: all spins below 1)", "why_tests_cant": "The property is about a derivative, for a continuum of spins.", "anchors": ["lib/KerrBL.C: getRms, getRmb"]}
{"id": "C71", "title": "A named magnetic field is the unit vector of the emitter's space along its name", "statement": "computeB4vect, asked for the configuration Vertical, Radial, Toroidal, Poloidal or Parabolic (or the opposite one, with -n), returns the one vector that has norm 1, is orthogonal to the 4-velocity of the emitter, and points along the named direction up to a multiple of d/dt; any other name, or a combination that has no meaning, is an error. computeB4vect_ipole returns a vector orthogonal to the 4-velocity that is the comoving field of the named magnetic field.", "quantifier": "every Lorentzian metric at the point (circular for spherical coordinates), every time-like 4-velocity, every position, every name", "why_tests_cant": "tests use one emitter on a circular orbit; the formula must hold for any direction of motion, where it fails for two names", "anchors": ["lib/Astrobj.C: Generic::computeB4vect", "lib/Astrobj.C: Generic::computeB4vect_ipole"]}
{"id": "C72", "title": "The angles between the field, the light and the directions of the sky", "statement": "get_theta_mag returns the angle in [0, pi] between the field and the light in the frame of the emitter. getChi returns the position angle in [-pi/2, pi/2] of the direction, among those seen by the emitter as north and west, that is orthogonal to the magnetic field (or along the electric field); it changes by the angle by which the two directions are turned and does not depend on the multiple of the wave vector they contain; getSinCos2Chi returns its double. Directions that are not orthonormal to 1e-3 are refused.", "quantifier": "every Lorentzian metric, unit time-like 4-velocity, null wave vector, transported pair of directions, and field with a component on the screen", "why_tests_cant": "the angle is an inverse trigonometric function with branch cuts, of vectors that are only defined up to the wave vector; only a proof covers every quadrant", "anchors": ["lib/Astrobj.C: Generic::get_theta_mag", "lib/Astrobj.C: Generic::getChi", "lib/Astrobj.C: Generic::getSinCos2Chi"]}
{"id": "C73", "title": "Objects that record their own hits answer exactly what was asked, seen through what is in front", "statement": "For the objects that replace the common recording of hits by their own (the disk of Page and Thorne, disks with an emission profile, the stochastic thin disk, bolometric disks read from files): for every ray, every quantity that is asked for and accepted ends with the value the physics says (bolometric intensity scaled by the fourth power of the frequency ratio and seen through the matter in front, spectrum and Stokes parameters by the third power, redshift, time and impact of the hit processed last), nothing that was not asked for is written, and a call with nothing to record changes nothing.", "quantifier": "for every list of hits, every metric product and velocity, every emission law, every spectrometer, every set of quantities asked for", "why_tests_cant": "the combinations of quantities, hits and options are unbounded; tests render images of one object with its default quantity", "anchors": ["lib/PageThorneDisk.C: processHitQuantities", "lib/ThinDiskProfile.C: processHitQuantities", "lib/StochasticThinDisk.C: processHitQuantities", "lib/DynamicalDiskBolometric.C: processHitQuantities"]}
{"id": "C74", "title": "The disk of Page and Thorne emits what the conservation laws impose", "statement": "For a metric of spin strictly between 0 and 1 and every radius outside the innermost stable orbit, the flux the disk emits is that of Page and Thorne's law (the integral of (E - Omega L) dL from the innermost orbit, divided by the square of E - Omega L and by the gradient of Omega) for the orbits of the metric itself; it vanishes at the innermost orbit and is positive outside; it does not depend on the coordinates used; the mass and accretion rate scale it; the temperature of the black body is that of the flux; and the disk follows the spin of its metric.", "quantifier": "for every spin, radius, mass, accretion rate and history of metric changes", "why_tests_cant": "a closed formula with logarithms of roots can only be compared with a numerical integral at sample points", "anchors": ["lib/PageThorneDisk.C: updateSpin, bolometricEmission, emission, metric, tell"]}
{"id": "C75", "title": "MPI workers are invisible to a program that uses them as documented, and none is left behind", "statement": "A program that calls mpiClone after changing a scenery or spawning workers, spawns its own workers and asks for spectra only of sceneries with a spectrometer gets from every call the same answer as without MPI: no call hangs, every image is of the current content of its scenery, errors are the same. As long as nothing hangs, a worker that was started is gone or belongs to exactly one living scenery, so none is left when all are destroyed. mpiTerminate lets the workers go; mpiSpawn(n) leaves exactly n workers and keeps those that run if they are n. The session of the tool under mpirun traces all its images and lets all processes leave.", "quantifier": "for every sequence of creations, changes, mpiSpawn, mpiClone, mpiTerminate, nProcesses, rayTrace and destructions over any number of sceneries, and every size of MPI_COMM_WORLD", "why_tests_cant": "the conversations are sequences of blocking collective calls: a single unmatched message blocks for ever, and the histories that lead there are unbounded", "anchors": ["lib/Scenery.C: mpiSpawn, mpiTerminate, mpiClone, mpiTask, mpiWorker, rayTrace, ~Scenery, nProcesses", "bin/gyoto.C: 489-515, 811-828", "bin/gyoto-mpi-worker.C", "include/GyotoScenery.h: 231-276"]}
{"id": "C77", "title": "Emission tables are read where they are and interpolated between their points", "statement": "However the tables of a DirectionalDisk were loaded, from consistent files or piece by piece (calls that were refused included), the sizes it works with are those of its vectors, and an emission at a frequency within the table gives a value or an error and never reads outside of the tables. With a table loaded from a consistent file, outside of the circular photon orbit the emission is an error where the redshifted band of the lamp leaves the frequencies of the table, 0 outside of that band and of the radii of the table, and otherwise the value tabulated at that radius, direction and frequency, by linear interpolation between the points of the grid (at a point of the grid: the tabulated value; never outside of the range of the tabulated values), or its mean over the directions if so asked. The same for a neutron star's model atmosphere in surface gravity, direction and frequency. For the disk lit by a lamp, the illumination is read at the azimuth from the lamp at the time of the hit, going around the circle, and the reflection table at the resulting ionisation, inclination and frequency; the emission repeats with the lamp's period.", "quantifier": "for every sequence of loads and settings, every table with monotonic grids of any size, every radius, direction, frequency, date and azimuth", "why_tests_cant": "index searches and array layouts fail only at particular cells, ends of grids and histories of loads; a test sees a few of them, and a read outside of a table goes unnoticed", "anchors": ["lib/DirectionalDisk.C: fitsRead, copyIntensity, copyGridRadius, copyGridCosi, copyGridFreq, lampaltitude, lampcutoffsinev, getIndices, emission", "lib/NeutronStarModelAtmosphere.C: getIndices, emission", "lib/XillverReflection.C: getIndicesRefl, getIndicesIllum, timelampphizero, emission"]}
{"id": "C78", "title": "Thick disks on a grid are read at the nearest node and met where the photon is inside them", "statement": "After any history of accepted loads and settings of a Disk3D (which does not replace an image under an opacity of another size, nor move the ends in azimuth of a repeated pattern, nor ask for no repetition or no frequency) its tables are as long as its sizes say, its steps are those of its ends and number of nodes, and a clone has the same contents. At every place of the slab, date and frequency the value read from the emission or the opacity is that of the node nearest in frequency, in azimuth within the rotating pattern, in altitude (mirrored if the grid begins at the equator) and in radius; the cylindrical components of the fluid's velocity are those of that node. The search for a photon in the disk always ends; the emission that is added belongs to dates of the segment at which the photon is in the slab, at most one without radiative transfer; the photon is sampled every 0.1 backwards from the end of the segment, from the first sample inside on every sample is used until the photon leaves or the segment ends, and a stay of 0.2 that begins more than 0.1 after the beginning of the segment is never missed.", "quantifier": "for every sequence of loads and settings, grid size, place, date, frequency, and every path of the photon and ends of the segment", "why_tests_cant": "indices leave the arrays only at particular cells and histories; whether a photon is seen depends on where its samples fall, for a continuum of paths", "anchors": ["lib/Disk3D.C: fitsRead, copyEmissquant, copyOpacity, copyVelocity, repeatPhi, rin, rout, zmin, zmax, phimin, phimax, copy constructor, getIndices, getVelocity, Impact", "lib/DynamicalDisk3D.C: emission1date, transmission1date (the index)"]}
{"id": "C79", "title": "Disks that change with time follow the tables of their dates", "statement": "After a DynamicalDisk or a DynamicalDisk3D has read a directory, whatever happened before, every date has the contents of the file of its number; the emission at any time is that of the first date before it, the line between two dates (but for the last interval) and that of the last date after, so that it stays between the values of the dates and is that of a date at a date. For the thick disk this holds at every place of the grid outside of the last stable orbit for the emission (a black body of the temperature of the nearest cell, nothing below the floor temperature when the disk is transparent; or the tabulated intensity, or the power law), for the transmission, and for each component of the velocity. A clone of the thick disk has the same tables. After any sequence of accepted calls the thin disk never reads what was not written.", "quantifier": "for every directory (number of files, contents, unreadable files), history of loads, time, frequency and place", "why_tests_cant": "the date picked depends on a continuum of times and any number of dates; histories with refused directories leave states that are only seen later", "anchors": ["lib/DynamicalDisk.C: file, copyQuantities, emission, getVelocity, copy constructor", "lib/DynamicalDisk3D.C: file, copyQuantities, emission, emission1date, transmission, transmission1date, getVelocity, copy constructor"]}
{"id": "C76", "title": "Every pixel of an image is computed on its own", "statement": "What is stored for a pixel, and whether the tracing fails there, depends on the scene, on the settings of the photon and on the quantities requested only: not on the pixels traced before with the same photon, not on whether one of them failed, not on what the record or the photon's memory held, and not on how the pixels are shared between threads, each with a copy of the photon (as long as the 4-dimensional equations of motion are chosen: a copy forgets the 3+1 ones). A masked pixel holds the initial values. For rays traced back in time with the photon of the scenery or a copy of it, no memory outside of the photon's arrays is read or written.", "quantifier": "all scenes, metrics, objects and integrators (as arbitrary functions), all photons ever used before, all series of requests of any length, all ways of sharing them", "why_tests_cant": "the state left in a photon by earlier rays is unbounded (capacity, stored points, transmissions, step, integrator), and a leak shows up only for particular orders of pixels", "anchors": ["lib/Scenery.C: Scenery::operator()(i,j,...), updatePhoton, SceneryThreadWorker", "lib/Photon.C: hit, resetTransmission, resetTransmissionMatrix, copy constructor", "lib/Worldline.C: setInitCoord, reInit, xExpand, copy constructor", "lib/WorldlineIntegState.C: init", "lib/Astrobj.C: Properties::init"]}
{"id": "C80", "title": "A worldline can be read at any date", "statement": "At a stored date getCoord returns the stored point, with angles possibly rewritten for the same place. Between two stored points of a photon in non-angular coordinates, it returns the point at this date on the chord between two points that enclose the date, each of them a stored neighbour or one integration step from one, never farther than the stored ones. For a massive particle the four-velocity is the one the metric makes of the velocity at the place returned. Free motion with an exact integrator is returned exactly, from the coordinate date or from the proper time, and the other time is returned with it. The velocities of getCartesian are the derivatives of its positions; get_xyz, save_txyz and getCartesian put each point at the same place. A vector of 4, 8 or 16 components is filled exactly. It is false that a component does not depend on which others are asked for, that any destination can be left out, that the azimuth is right when the orbit passes the azimuth 0, that save_txyz between dates stays in its table and that a vector of 4 elements can be given with an index.", "quantifier": "every kind of coordinates, set of requested components, date, pair of stored points, integrator and metric", "why_tests_cant": "the result depends on two integration steps from both neighbours and on which of four points enclose the date, for all dates and all requests", "anchors": ["lib/Worldline.C: Worldline::getCoord, getCartesian, get_xyz, get_prime, save_txyz, getCartesianPos"]}
{"id": "C81", "title": "The 3+1 equations integrate geodesics of the metric", "statement": "When a metric is integrated in 3+1 form (variables {E, r, theta, phi, Vr, Vtheta, Vphi}, with the coordinate time as parameter), the right-hand sides given by the numerical metric and by Kerr in Boyer-Lindquist coordinates are those of geodesics: any curve following them, converted to a four-velocity with the lapse and shift, obeys the geodesic equation of the four-metric and keeps its norm. The short equations used when the metric is declared axisymmetric and circular agree with the general ones, and the axis, the centre and a vanishing lapse are refused.", "quantifier": "every lapse, shift, spatial metric and extrinsic curvature (even depending on time for the general equations), every spin, every state outside the horizon and off the axis, every differentiable curve following the equations", "why_tests_cant": "a ray ends near the right place even when a Christoffel symbol or a component of the extrinsic curvature that is small in the tested metrics is wrong; only the identity for all metrics shows the right-hand side is the geodesic equation", "anchors": ["lib/KerrBL.C: KerrBL::diff31, computeNBeta", "lib/NumericalMetricLorene.C: NumericalMetricLorene::diff (three overloads)", "lib/WorldlineIntegState.C: Boost::doStep, Boost::nextStep"]}
{"id": "C82", "title": "A numerical metric is the one of its slices", "statement": "For a metric read from slices of a 3+1 simulation: at the date of a slice every quantity is the one of that slice, after the last slice the one of the last, what varies linearly (and as a cubic away from both ends) is exact in between, and what does not vary is the same at every date; on a slice the metric coefficients are those of the lapse, shift and spatial metric; the Christoffel symbols are those of that metric; the derivatives are its derivatives; the inverse is its inverse; circular orbits have norm -1 and stay at their radius, with the angular momentum and potential that go with them; and light is integrated with the equations of its date, and stops below the horizon only.", "quantifier": "for every number of slices and every increasing list of dates, every date, every slice whose fields are differentiable, satisfy the relation between extrinsic curvature and metric, and are circular where stated, every point off the centre and the axis, every component", "why_tests_cant": "the slices are files of an external simulation; a test compares a few points of one file with stored numbers, and says nothing about other dates, off-equatorial points, or components that vanish in that file", "anchors": ["lib/NumericalMetricLorene.C: gmunu, gmunu_up, gmunu_up_dr, getNbeta, christoffel, christoffel3, diff, Interpol3rdOrder, computeHorizon, getPotential, getSpecificAngularMomentum, circularVelocity"]}
{"id": "C83", "title": "The gyoto command computes what its command line spells", "statement": "gyoto computes exactly the pixels spelt by --imin/--imax/--di/-i/--jmin/--jmax/--dj/-j, each once, the last word on each bound being the right one; it applies the scene options in the order given, each parameter with the unit in force, and writes intermediate scene files with the options that come before; each pixel asked for gets the value of its ray in the output image; impact coordinates read back are moved by the change of date and nothing else; an image is computed exactly when two files are named, the first of which holds a scene, and otherwise the exit code says what happened. A value that cannot be honoured (pixel 0, negative or null step, fractional bound) is refused.", "quantifier": "every sequence of options and numerals, every image size below 2^32, every scene setting behaviour, every previous content of the image memory", "why_tests_cant": "option sequences, numerals and sizes are unbounded and interact: each option can override any earlier one", "anchors": ["bin/gyoto.C: main", "lib/Utils.C: Gyoto::atof", "include/GyotoScreen.h: Screen::Range, Screen::Grid", "lib/Scenery.C: Scenery::operator()"]}
{"id": "C84", "title": "Emission and absorption of a plasma", "statement": "After any history of settings and copies, a thermal plasma (synchrotron or bremsstrahlung) obeys Kirchhoff's law at its own temperature: at every positive frequency what it emits, in each Stokes parameter, is what it absorbs times the Planck function at the temperature last asked for. Emission and absorption are positive and proportional to the density (its square for bremsstrahlung); linear polarisation never exceeds the emission; polarised and unpolarised requests agree on Stokes I; a length of plasma adds between nothing and the black-body value seen through its optical depth. A power-law distribution of index p gives spectra of index (1-p)/2 and -(p+4)/2 and the polarisation (p+1)/(p+7/3); a kappa distribution stays below both of its asymptotic forms. The average over directions is the mean of the quantity over the sphere. Requests do not change the spectrum.", "quantifier": "all temperatures, densities, angles, frequencies, distribution indices, and all histories of settings", "why_tests_cant": "the laws relate functions of real parameters at all frequencies; tests sample a few values against reference tables", "anchors": ["lib/ThermalSynchrotronSpectrum.C:ThermalSynchrotron::radiativeQ", "lib/PowerLawSynchrotronSpectrum.C:PowerLawSynchrotron::radiativeQ", "lib/KappaDistributionSynchrotronSpectrum.C:KappaDistributionSynchrotron::radiativeQ", "lib/ThermalBremsstrahlungSpectrum.C:ThermalBremsstrahlung::radiativeQ"]}
{"id": "C85", "title": "Stars are where, when and as bright as they were asked to be", "statement": "A uniform sphere keeps the radius, spectrum, opacity and flags asked for last; it is hit exactly inside the ball of its radius around its centre; an opaque one lets nothing through and a thin one lets through a fraction that composes along the ray. The step limit it asks of photons never lets a ray jump over it. A FixedStar stays where it was put last; a Star read from a file starts at the position and with the velocity of the file, in whatever order; a FreeStar moves uniformly with the velocity given, which is refused unless slower than light; an InflateStar grows linearly between its two dates and conserves what it emits; a StarTrace is everything within the radius of a stored point in its window of dates; a hot spot emits between 0 and 1 and is transparent.", "quantifier": "all radii, positions, velocities, dates, metrics and spectra, and all histories of settings, entries and stored points", "why_tests_cant": "the claims range over real positions and velocities, over all orders of settings and over every straight step a photon can take", "anchors": ["lib/UniformSphere.C: operator(), deltaMax, emission, transmission, integrateEmission, radius, opacity", "lib/FixedStar.C: getCartesian, getVelocity, rMax, position", "lib/FreeStar.C: initPosition, initVelocity, initCoord, getCartesian", "lib/InflateStar.C: radiusAt, Impact, emission", "lib/StarTrace.C: TMin, TMax, computeXYZ, xStore, setInitCoord, metric, operator()", "lib/Star.C: rMax, Position, Velocity", "lib/Worldline.C: setPosition, setVelocity", "lib/EquatorialHotSpot.C: emission, radiativeQ"]}
{"id": "C86", "title": "Blobs and plasmoids move along the path they report", "statement": "A Blob keeps the position, velocity and kind of motion asked for last; it is at its initial position at its initial date, and at every date the four-velocity it reports is a unit vector along the derivative of its path: circular in the plane, on a cone with r^2 dphi/dt conserved, or on a cylinder of constant radius. Its modulation is between 0 and 1, is 1 at the centre at the date of reference and falls to three sigmas at the edge. What is written can be read back. A Plasmoid refuses a velocity that is not slower than light, has the radius asked for, moves with the velocity it reports, and mixes the toroidal and the poloidal field into a unit one.", "quantifier": "all positions, velocities, dates, metrics and field ratios, and all histories of settings", "why_tests_cant": "path and velocity are two separate pieces of code that must agree at every date and for every real parameter; settings can come in any order", "anchors": ["lib/Blob.C: init4Coord, init3Velo, blobMotionType, getCartesian, getVelocity, radiativeQ", "lib/Plasmoid.C: initPosition, initVelocity, initCoord, motionType, Radius, radiusMax, getCartesian, getVelocity, Impact, radiativeQ"]}
{"id": "C87", "title": "Emitters given by formulas move and shine as their formulas say", "statement": "The velocity a DeformedTorus reports follows its surface, is a unit one and has the specific angular momentum of the orbit at its centre. The surface of a NeutronStar has a unit four-velocity for the Lorentz factor of its velocity. An iron line is emitted only outside its cut radius and within one percent of the line asked for, in whatever unit. The temperature of a ThinDiskPL is that asked for at the inner radius and a power law of the radius; PatternDiskBB shines as a black body of the temperature of its pattern. A ThinDiskProfile always moves with a unit velocity: on the circular orbit, with the energy and angular momentum of the last stable orbit below it, falling from rest at infinity, or a fixed mix. SimThickDisk contains the points below its opening angle, which is that of its grid.", "quantifier": "all positions, dates, parameters and stationary axisymmetric metrics", "why_tests_cant": "the claims are identities between real functions (derivatives along a flow, norms) for every metric and parameter", "anchors": ["lib/DeformedTorus.C: operator(), getVelocity, beta", "lib/NeutronStar.C: getVelocity", "lib/ThinDiskIronLine.C: LineFreq, emission, getVelocity", "lib/ThinDiskPL.C: emission", "lib/PatternDiskBB.C: emission", "lib/ThinDiskProfile.C: getVelocity, emission, model_param", "lib/SimThickDisk.C: operator(), filename"]}
{"id": "C88", "title": "Tori, thick disks and jets have the shape, plasma and velocity asked for", "statement": "A Torus contains exactly the points nearer than the small radius to the circle of the large radius; a Jet exactly the points outside its base radius and between its two parabolas or cones. Every parameter is the last one given, and an error is told when it is out of range. In both kinds of coordinates a ThickDisk has the density and temperature laws asked for, with the given values at the inner radius in the plane, and a Jet a density that falls from its base as the square of the distance to the axis. A layer shines as the solution of the equation of transfer. A ThickDisk moves with a unit velocity that mixes, as asked, a circular one of known angular momentum with the fall from rest at infinity; a Torus like the circular orbit below; a Jet with the Lorentz factor asked for in the frame of the observers of zero angular momentum, along its parabolas or cones, outwards or inwards, and round the axis in the proportion asked for. The combined magnetic field is a unit one.", "quantifier": "all positions, parameters, sequences of settings and stationary axisymmetric metrics", "why_tests_cant": "the claims are identities and inequalities between real functions for every point, metric and history of settings", "anchors": ["lib/Torus.C: operator(), getVelocity, radiativeQ, emission, transmission, rMax", "lib/ThickDisk.C: velocityParam, radiativeQ, getVelocity, operator()", "lib/Jet.C: operator(), getVelocity, radiativeQ, jetShapeInnerParabolaParam, alpha"]}
{"id": "C89", "title": "A shifted metric is the same space-time, moved", "statement": "Whatever is asked of a Shift, in whatever order and after any history of settings, the coefficients, their inverse, their derivatives and the Christoffel symbols it gives at x are those of the last metric it was given, taken at x minus the last offset of four entries; the derivatives and Christoffel symbols are those of the moved coefficients. Geodesics of the moved space-time are the geodesics moved, a shift of a shift is a shift by the sum, and a null shift changes nothing. The mass of the Shift is at all times that of the metric it moves. Lines stop where they would without the shift. The kind of coordinates is that of the metric it moves, and so is the circular velocity.", "quantifier": "all metrics, offsets, positions, orders of calls and sequences of settings", "why_tests_cant": "the claims range over every metric, position, order of calls and history of settings", "anchors": ["lib/Shift.C: subMetric, mass, tell, offset, gmunu, gmunu_up, jacobian, isStopCondition", "lib/Metric.C: circularVelocity, christoffel, gmunu_up_and_jacobian"]}
{"id": "C90", "title": "With the Keplerian approximation, massive particles in flat space obey Newton's law", "statement": "In a flat metric with the Keplerian approximation, along the curve the program's equation of motion defines, the derivative with respect to t of dx/dt is -x/r^3: energy and angular momentum are conserved, and a four-velocity of square -1 keeps it. The motion is the same in spherical coordinates as in Cartesian ones. The Cartesian velocity given for a line is the derivative of its Cartesian position with respect to t. The circular velocity is the one of an orbit of the program that is a circle. The law is used exactly for massive particles in a metric that is Keplerian; light follows the geodesics.", "quantifier": "all curves, positions, velocities, masses and both kinds of coordinates", "why_tests_cant": "the claims are about derivatives along every solution, for every initial state", "anchors": ["lib/Minkowski.C: diff, spherical", "lib/Metric.C: cartesianVelocity, circularVelocity"]}
{"id": "C91", "title": "A flared disk read from tables has the shape, the polytropic plasma, the light and the motion its settings and tables say", "statement": "The disk is the set of points between the two cylinders of the grid and not higher than H/R times the distance to the axis. After any sequence of settings each one reads as last asked for, and the field at the maximum gives the ratio of pressures asked for. Inside, the plasma is a polytrope of the index asked for, with the density of the table in the plane, nothing at the surface, and the same above and below. The light is the solution of the equation of transfer through that plasma. The velocity has the rates of the table and square -1. After any sequence of tables given, those in use have the sizes of the grid, and a copy of the disk has the same tables. All this is the same in Cartesian coordinates.", "quantifier": "all points, both kinds of coordinates, all tables, all metrics, all sequences of settings and of tables", "why_tests_cant": "the claims range over every point of a continuous medium and every order of giving tables, some of which read past the end of an array without any visible sign", "anchors": ["lib/FlaredDiskSynchrotron.C: operator(), radiativeQ, getVelocity, copyDensity, copyVelocity, copyBvector, copyTimeArray, copy constructor, numberDensityMax, temperatureMax, betaAtMax, polytropicIndex"]}
{"id": "C92", "title": "A step of the Legacy integrator is a fourth-order one, controlled to its tolerance, and its size always gets found", "statement": "One step of the Legacy integrator differs from the exact motion by a term of the fifth power of the step (for linear laws), integrates exactly rates that are cubics of the time, and follows straight lines when the rates are constant. An adaptive step gives one such step, of a size not larger than the one tried and in the same direction, that two steps of half that size confirm on each of the eight numbers to 1e-15 plus 1e-4 of the first change tried. The next size is in the same direction and within the bounds. When the rates are bounded and the metric does not stop the integration, a size is found after finitely many trials. The integration stops only if the metric says so.", "quantifier": "all metrics (laws of motion), states, steps, bounds and numbers of trials", "why_tests_cant": "the order of a method and the end of an unbounded loop are claims about all laws and all steps", "anchors": ["lib/Metric.C: myrk4, myrk4_adaptive", "lib/WorldlineIntegState.C: Legacy::nextStep"]}
{"id": "C93", "title": "A Polish doughnut follows its last setting and its metric, and its fluid moves with constant angular momentum", "statement": "After any sequence of Lambda, AngMomRinner, metrics given and metrics changed, the doughnut is the one a new object gets from the metric in use and the last setting: the order does not matter. With Lambda, the angular momentum lies between those of the marginally stable and marginally bound orbits, is the Keplerian one at the cusp and at the centre, on both sides of the marginally stable orbit, and the outer edge has the potential of the cusp. A point is inside exactly if it is beyond the inner edge, the motion exists there, it is not in the funnel and the potential is not below that of the surface. The velocity of the fluid is a unit one, to the future, along circles, with the angular momentum of the doughnut, and exists wherever the shape says the motion does. A setting that meets an error changes nothing.", "quantifier": "all sequences of settings and metrics, all metrics, points and angular momenta", "why_tests_cant": "the claims range over every order of settings and over every metric and point", "anchors": ["lib/PolishDoughnut.C: lambda, angmomrinner, metric, tell, changeCusp, operator(), getVelocity, setParameter"]}
{"id": "C94", "title": "An oscillating torus follows its settings and moves with a mode of a slender torus", "statement": "After any sequence of settings, metrics given and metrics changed, the surface and the velocities of the torus are those of a new object with the last settings, in whatever order they came, and every setting reads as it was last set. The surface is an ellipse around a circle, moved by a solution of the wave equation of a slender torus, with the pulsation and the amplitude of the mode asked for; it is the same after a turn and after a period. The velocity is a unit one, with one specific angular momentum, and that of a free particle at the centre of a torus at rest. With a file of areas, the light at a time is the inverse of the area which the file says, by straight lines between its rows, and a copy names the same file.", "quantifier": "all sequences of settings, all metrics, points, times, modes and tables", "why_tests_cant": "the claims range over every order of settings, every point and time and every table", "anchors": ["lib/OscilTorus.C: largeRadius, polyIndex, perturbKind, metric, tell, updateCachedValues, computeXbYb, operator(), getVelocity, emission, OscilTorus(const OscilTorus&)", "include/GyotoProperty.h: GYOTO_PROPERTY_ACCESSORS_GEOMETRICAL_SPECIAL"]}
{"id": "C95", "title": "The tables of a model atmosphere always have the sizes that the star says", "statement": "After any sequence of tables given, tables withdrawn and files read, including calls that were refused, every table of the star has the number of rows that the star says, so that the emission never looks beyond one. A complete file replaces all that was there, and is the file the star names. What is written to a file is read back by any star. A refused call changes nothing. A copy has the same tables, settings and file name.", "quantifier": "all sequences of calls, all tables, sizes and files, complete or not", "why_tests_cant": "the sizes must agree after every history of calls and for every file, including the files that fail part of the way", "anchors": ["lib/NeutronStarModelAtmosphere.C: copyIntensity, copyGridSurfgrav, copyGridCosi, copyGridFreq, file, fitsRead, fitsWrite, NeutronStarModelAtmosphere(const NeutronStarModelAtmosphere&)"]}
{"id": "C96", "title": "A spherical accretion flow falls from rest, and shines as its settings say", "statement": "In any coordinates, the matter of a spherical accretion flow fills what is beyond its inner radius and falls towards the centre with a unit velocity, with the energy of a particle at rest far away, without angular momentum and without motion in colatitude. Its density and temperature are power laws of the distance to the centre with the values set at the inner radius, its field has the energy set, and the light of a layer solves the equation of transfer, without absorption when it is switched off. Every setting reads as it was last set.", "quantifier": "all sequences of settings, all metrics, points, frequencies and lengths", "why_tests_cant": "the claims range over every metric, every point and every order of settings", "anchors": ["lib/SphericalAccretion.C: sphericalAccretionInnerRadius, numberDensityAtInnerRadius, densitySlope, temperatureAtInnerRadius, temperatureSlope, magnetizationParameter, useSelfAbsorption, radiativeQ, operator(), getVelocity"]}
