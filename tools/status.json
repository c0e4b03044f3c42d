{
 "C01": {"status": "proved", "note": "Supported uses only; refuted for p = raw pointer owned by *p, p = p->next, assignment of counted objects; cycles leak."},
 "C02": {"status": "proved", "note": "With the mutex; without pthread support refuted."},
 "C03": {"status": "proved", "note": "Listeners may hook anybody and unhook others while told; unhooking oneself is refuted."},
 "C04": {"status": "proved", "note": "Ranges need max+step < 2^64 and step > 0; outside, refuted."},
 "C05": {"status": "proved", "note": "For sets readable after their end (pixel ranges); index lists are read past the end (refuted), NULL data, empty set, non-rewound set and pixel 0 refuted."},
 "C06": {"status": "partial", "note": "Full statement proved when at most one spectral quantity is requested; false with two (C06_message_refuted, C06_two_spectra_refuted)."},
 "C07": {"status": "proved", "note": ""},
 "C08": {"status": "proved", "note": "For res*res < 2^31; refuted beyond (int stride)."},
 "C09": {"status": "proved", "note": "Units are not part of the round trip (refuted); the setter damages its argument (refuted)."},
 "C10": {"status": "proved", "note": "Storage of Worldline and of Photon::hit, all histories and integrators. Three findings: no initial condition, hit back from index 0, hit forward from the last index."},
 "C11": {"status": "proved", "note": "Any request list in any order, with extension of the path on demand; integrator assumed to respect the direction of time."},
 "C12": {"status": "proved", "note": "Over the reals; dir is +1 or -1."},
 "C13": {"status": "proved", "note": "Worldline/Metric deltaMax, Boost adaptive stepping with an arbitrary controlled stepper, composite objects. Finding: the legacy integrator makes steps above the limit."},
 "C14": {"status": "proved", "note": "Worldline::checkPhiTheta and Screen direction angles over the reals. Findings: closed phi range, 3+1 states, polarisation basis."},
 "C15": {"status": "proved", "note": "findValue and findMin over the reals, any object function. Finding: no termination under rounding."},
 "C16": {"status": "proved", "note": "Scalars and matrices, all histories with a spectrometer that keeps its number of channels; polarised transfer solves the transfer equation. Copies of the matrices, resized spectrometers and the maximum with an empty spectrometer are refuted."},
 "C17": {"status": "proved", "note": "lookup, round trip, units, errors, names, XML round trip for tables without repeated names; two findings"},
 "C18": {"status": "proved", "note": "object paths over a heap of objects"},
 "C19": {"status": "proved", "note": "histories of values; a negative integer read as unsigned is a finding"},
 "C20": {"status": "proved", "note": "All registers, lists and histories of requests; plug-in initialisation functions load no other plug-in. Null mode on an empty register and attribution after a throwing initialisation are refuted."},
 "C21": {"status": "proved", "note": "All lists of comma-free entries; loading order and failures for every set of available plug-ins. Empty entries between commas are a finding."},
 "C22": {"status": "proved", "note": "All strings and delimiter sets."},
 "C23": {"status": "proved", "note": "All lists of numbers that read back one by one as printed, all texts and maxima. That 15 digits make single doubles read back is refuted."},
 "C24": {"status": "proved", "note": "writing over arbitrary object graphs, reading over arbitrary request sequences with layered construction"},
 "C25": {"status": "proved", "note": "every history of settings in which no position is refused; spherical round trip where the coordinates are unique"},
 "C26": {"status": "proved", "note": "Cartesian position at the origin excluded (it has no direction)"},
 "C27": {"status": "proved", "note": "with and without udunits (an argument that promises inverse conversions); exceptions refuted: durations as lengths with udunits, frequencies without udunits, deprecated time unit name; field of view: see C54"},
 "C28": {"status": "proved", "note": "Boundaries, channels, widths and midpoints after any history of settings and copies; totality; unit round trip for linear kinds. Refuted: units for logarithmic kinds, unknown kind name kept, number of boundaries of the four-argument constructor, no sample."},
 "C29": {"status": "proved", "note": "Concatenation after any history in which elements tell and are not present twice; uniform spectrometers with samples do. Refuted: an element present twice, an element set to no sample, copies."},
 "C30": {"status": "proved", "note": "List behaviour, memory safety and errors for all histories; composite metrics (kind check, sums). Refuted for spectrometers: index equal to the size reads beyond the array."},
 "C31": {"status": "proved", "note": "Kerr (BL, KS) and flat; other metrics not modelled"},
 "C32": {"status": "partial", "note": "generic inversion: proved when coordinates are coupled at most two by two, refuted beyond; circular inversion: proved where g_tt is not zero, refuted on the ergosphere"},
 "C33": {"status": "proved", "note": "Kerr (BL, KS), flat, and the default assembly for any metric"},
 "C34": {"status": "proved", "note": "over the reals, any symmetric metric matrix"},
 "C35": {"status": "proved", "note": "over the reals, any metric of signature (-,+,+,+); in flat space the frame is the generic one in spherical coordinates, and in Cartesian ones an error (a finding, C35_minkowski_refuted)"},
 "C36": {"status": "proved", "note": "All subsets, all histories, all frequency counts. Provided methods are pure functions that fill the arrays they are given; doubles are reals. Refuted side finding: C36_polar_refuted."},
 "C37": {"status": "proved", "note": "Every subset of provided methods, every history of calls: terminates, reads nothing unset, answers what the provided methods mean. Hypotheses: at least one form of the metric is provided, provided matrices are symmetric, and the library's inversion of this metric is symmetric (C37_inverse gives that from C32's condition). Provided methods are pure functions; numerical derivative by forward difference, over the reals."},
 "C38": {"status": "partial", "note": "Proved away from the edges: value, bounds, nodes, exactness, boundary conditions, safety. At the last node, at the last time and for mixed or periodic conditions the claim is false of the code (the _refuted theorems)."},
 "C39": {"status": "partial", "note": "Sizes after every history of setters whose arguments are as long as announced, spacing after histories that keep the derived steps, and emission, transmission and velocity as bilinear interpolation between the tabulated nodes are proved. The unrestricted statement is false: see the _refuted theorems (copies with explicit radii, edges of explicit radii, last angle, repeated and rotating patterns, failed loads)."},
 "C40": {"status": "proved", "note": "conversion there and back for any lapse and shift; the angle normalisation half of the statement is C14_state and C14_three_plus_one_refuted"},
 "C41": {"status": "partial", "note": "re-orthonormalising divides by zero for a null wave vector and exchanges the two vectors (refuted); what holds for other directions is proved"},
 "C42": {"status": "partial", "note": "rotation, transmission, composition and physical Stokes vectors for every medium with polarised coefficients; emission in the general and thin regimes. Refuted: plain absorption without polarised coefficients is dropped (identity matrix), the thick approximation can be wrong by two orders of magnitude, the system is singular without absorption."},
 "C43": {"status": "proved", "note": "Every name is accepted exactly when the build has it; through any history the integrator is the last one chosen; scene files restore it with every numerical setting; exceptions (classic variant's truncated name, 3+1 flag lost) proved as refutations."},
 "C44": {"status": "proved", "note": "the stale mask file name after a resolution change is refuted; that masked pixels are not traced is C05_masked"},
 "C45": {"status": "proved", "note": "one debug mode at a time; passing from one non-zero mode to another is refuted"},
 "C46": {"status": "proved", "note": "All strings; dirname() and getcwd() are arguments."},
 "C47": {"status": "proved", "note": "All spectra as oracles, all bands, all depths; doubles are reals (the step nu += dnu is exact). Also the per-channel loop, opacity, and PolishDoughnut's subdivided channels with array bounds. Termination proved whenever the integral is positive; refuted for negative spectra."},
 "C48": {"status": "partial", "note": "Full statement for classes that validate before unhooking, hook in setter and copy, unhook in the destructor (PolishDoughnut, OscilTorus), and for Worldline/Shift without copies; refuted for the other classes."},
 "C49": {"status": "proved", "note": "for objects without a screen property: with one, the query is an error (finding)"},
 "C50": {"status": "proved", "note": "Holds from the moment the composite has a metric, and setting reaches all parts. Refuted when a part without metric is appended before one with a metric."},
 "C51": {"status": "proved", "note": "Impact, radius and step limits for all lists of parts, hit patterns and refinements."},
 "C52": {"status": "proved", "note": "documented exceptions are refuted separately: declination beyond the pole, one-pixel spherical screen, scaled azimuth, inclination outside (0, pi) in spherical coordinates"},
 "C53": {"status": "proved", "note": "without offsets of the field of view; diagonal metric at the observer in spherical coordinates; inclination in (0, pi) in Cartesian ones; the rest is refuted"},
 "C54": {"status": "proved", "note": "the units without udunits; aliases that cannot be read and degrees of the viewing angles are refuted"},
 "C55": {"status": "proved", "note": ""},
 "C56": {"status": "proved", "note": "Real arithmetic; the time derivative is a derivative, not the integrator's step. Two boundary findings refuted separately."},
 "C57": {"status": "proved", "note": "Real arithmetic; outside the outer horizon, off the axis."},
 "C58": {"status": "proved", "note": "Non-Keplerian circularVelocity; the geodesic part at the equator, where the library's formula is meant to be exact."},
 "C59": {"status": "proved", "note": "Histories of settings; black body under the stated order of settings, with the unrestricted claim refuted by C59_correction_refuted and C59_file_refuted."},
 "C60": {"status": "proved", "note": "Fixed-step steps agree in 4D for every stepper, and in 3+1 while the angles stay in range; polar crossing refuted."},
 "C61": {"status": "proved", "note": "Ridders: termination bound and answer for every function; root by the intermediate value theorem; secant: termination, status, affine case; refutations."},
 "C62": {"status": "partial", "note": "The bounds and the times are characterised for every history and agree after a first translation; the general claim is false of the code (C62_twice_refuted, C62_error_refuted)."},
 "C63": {"status": "proved", "note": "Proved for every quantity; the cases in which the attenuation is not applied or the program stops (polarised channel averages, opaque matter with an idle spectrometer, redshift of hidden hits, Stokes parameters alone) are the _refuted theorems."},
 "C64": {"status": "proved", "note": "Standard::Impact; a single passage is a hypothesis of the covering theorem only"},
 "C65": {"status": "proved", "note": "ThinDisk::Impact"},
 "C66": {"status": "proved", "note": "for a fresh ray; what the function does wrong in other settings is in the refuted theorems"},
 "C67": {"status": "partial", "note": "full for Reissner-Nordstrom, harmonic Schwarzschild, Rezzolla-Zhidenko and Hayward (radius >= 0 for one contravariant coefficient); Konoplya-Rezzolla-Zhidenko only when the third asymptotic deformation is 0 and Balasin-Grumiller only in the equatorial plane: the rest is false of the code"},
 "C68": {"status": "partial", "note": "full for Reissner-Nordstrom, harmonic Schwarzschild and Hayward; Chern-Simons, Rezzolla-Zhidenko and Konoplya-Rezzolla-Zhidenko ignore the direction, and the last two normalise only in the equatorial plane: the rest is false of the code"},
 "C69": {"status": "proved", "note": "what the code does otherwise (copies, throws after storing, flat Kerr2PN) is in the _refuted theorems"},
 "C70": {"status": "proved", "note": "for retrograde spins the order is refuted"},
 "C71": {"status": "partial", "note": "All names in Cartesian coordinates, and Vertical, Radial, Toroidal in spherical coordinates, in full; uniqueness; ipole in Boyer-Lindquist coordinates. Poloidal and Parabolic in spherical coordinates hold only for an emitter that does not move in theta (C71_poloidal_partial, C71_parabolic_partial): the full claim is false of the code (C71_poloidal_refuted, C71_parabolic_refuted), as is that of ipole in Cartesian coordinates."},
 "C72": {"status": "partial", "note": "theta and the magnetic chi in full. The electric chi holds outside one quadrant (C72_electric_partial), in which the code throws (C72_electric_refuted)."},
 "C73": {"status": "partial", "note": "Page-Thorne and bolometric disks: all statements proved (with what they refuse); the profile and stochastic disks record one quantity at a time and need one channel: _partial theorems give the value of the one recorded, the _refuted ones show what is lost."},
 "C74": {"status": "partial", "note": "Proved for spins strictly between 0 and 1 (law, sign, coordinates, scale, history). The temperature uses inconsistent units, negative spins give negative emission and the inner radius does not follow the spin (refuted). Spin 0 and 1, where the formula divides by zero in exact arithmetic, are excluded."},
 "C75": {"status": "partial", "note": "Proved for programs that spawn their own workers and clone after changes; the same claim for programs that do not clone, for several sceneries on MPI_COMM_WORLD, for a repeated mpiSpawn(-1) and for a spectrum without spectrometer is refuted."},
 "C76": {"status": "proved", "note": "for all worlds and photons; the four exceptions found are the _refuted theorems: the copy loses Integ31, the basis of the polarisation of a passed photon, the matrix without spectrometer, a photon set up forward"},
 "C77": {"status": "proved", "note": "DirectionalDisk with its loading history; NeutronStarModelAtmosphere and XillverReflection from loaded tables. The axis order of the latter two is the code's, not the documented one (refuted separately)."},
 "C78": {"status": "proved", "note": "grid tables, nearest node, Impact; deviations are proved as C78_*_refuted"},
 "C79": {"status": "proved", "note": "dates, loading, emission, transmission, velocity; deviations are proved as C79_*_refuted"},
 "C80": {"status": "proved", "note": "the false readings are C80_request_refuted, C80_null_refuted, C80_azimuth_refuted, C80_save_refuted and C80_index_refuted"},
 "C81": {"status": "proved", "note": "for any space-time given by lapse, shift and spatial metric, for stationary numerical metrics, and for Kerr outside the horizon and off the axis; equations only, not their numerical integration"},
 "C82": {"status": "partial", "note": "Partial because the full statement is false of the code (see the refuted theorems): dates before the first slice, derivatives near the ends of the table, off-diagonal spatial metrics, the inverse metric, the r-derivative of g_tt off the equator, twelve components of the one-component Christoffel function, and 3+1 equations at dates other than 0. Everything else is proved."},
 "C83": {"status": "partial", "note": "full statement is false of the code: see the _refuted theorems (values that cannot be honoured are accepted; pixels not asked for hold uninitialised memory; --no-sigfpe does the opposite). Proved for positive integer numerals that fit an int."},
 "C84": {"status": "partial", "note": "Kirchhoff, signs, polarisation bounds, spectral indices, increments and settings proved for all inputs; refuted: the average of an isotropic quantity, unchanged spectrum after averaging, circular polarisation below the emission, low frequencies of the power law, kappa between the fits"},
 "C85": {"status": "partial", "note": "where the code differs (SchwarzschildHarmonic behind the centre, stale or signed reach, isotropic integrals, second positions, FreeStar read-back and derivatives, default InflateStar, StarTrace window and gaps) a refuted theorem shows it; the rest is proved"},
 "C86": {"status": "partial", "note": "the false parts are refuted: see the findings"},
 "C87": {"status": "partial", "note": "the false parts are refuted: see the findings"},
 "C88": {"status": "partial", "note": "Proved for the shapes, the laws, the settings, the layers, the velocities and the combined field; the refuted theorems list where the code does otherwise (refused values kept, inner radius and absorption of polarised images, coordinates unchecked, base of a cone, outer wall, sign of the Lorentz factor, exponent of the field)."},
 "C89": {"status": "partial", "note": "All but the last sentence, which is refuted by C89_kind_refuted and C89_circular_refuted."},
 "C90": {"status": "partial", "note": "Newton's law, conservation, agreement of both kinds of coordinates (for a positive sine of the colatitude), the Cartesian velocity, the use of the law, and circular orbits in the plane. Circular velocity off the plane and the spherical form past the axis are refuted."},
 "C91": {"status": "partial", "note": "Proved for one grid and spherical coordinates; refuted for tables of several grids, Cartesian coordinates, the default index and the strength of a field from a table. Reading FITS files and the angle between field and light are not modelled."},
 "C92": {"status": "partial", "note": "The order of a step is proved for linear laws and for rates that are cubics of the time; for general laws only the control of the step, its end and its bounds."},
 "C93": {"status": "partial", "note": "Proved without ChangeCusp and without errors; refuted for ChangeCusp set after Lambda, for a refused AngMomRinner and for the empty element ADAF. The searches are taken to find a zero; how well they do is in C61."},
 "C94": {"status": "partial", "note": "Proved without LargeRadius given with a unit; the light is proved at and beyond the ends of the table only. Refuted: the light between two rows, LargeRadius with a unit, the file name of a copy."},
 "C95": {"status": "partial", "note": "Proved: sizes agree after every history in which no file reading fails (C95_sizes); complete files (C95_file), writing and reading back (C95_write, C95_complete), tables given one by one (C95_given, C95_intensity), which calls are refused (C95_refused), the setting (C95_average), copies (C95_copy). The rest is false of the code: a file that fails after its image leaves axes of other sizes (C95_file_refuted), a refused call still changes the file name or drops the axis (C95_name_refuted, C95_axis_refuted), a copy names no file (C95_copy_refuted)."},
 "C96": {"status": "partial", "note": "Proved: settings (C96_settings), shape (C96_where), velocity in any stationary axisymmetric metric in spherical coordinates, and that no other velocity is meant (C96_velocity), that of Kerr (C96_kerr), light (C96_light). In Cartesian coordinates the velocity is not radial and the check lets it pass far from the centre (C96_cartesian_refuted)."}
}
