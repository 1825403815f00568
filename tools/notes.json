{
 "C01": {"note": "Exact arithmetic, every positive-constant set; the zero-frequency point is shown to be NaN."},
 "C02": {"note": "Exact arithmetic."},
 "C03": {"note": "Exact arithmetic, any species count."},
 "C04": {"note": "Exact arithmetic; improper integral proved to exist and equal the closed form."},
 "C05": {"note": "Exact arithmetic; the printed zeta(3) is accounted for by a stated relative error."},
 "C06": {"note": "Exact arithmetic; the printed zeta(3) is accounted for by a stated relative error."},
 "C07": {"note": "Exact arithmetic."},
 "C08": {"note": "Kirchhoff identities hold for any arithmetic (bit for bit); the values in exact arithmetic."},
 "C09": {"note": "Exact arithmetic, deviation by the SMALL guard stated exactly."},
 "C10": {"note": "True of Gray, PowerLaw, BRT and bremsstrahlung; false of Tophat, whose AbsorptionCoefficient carries an extra 1/(4 pi) (refuted)."},
 "C11": {"note": "Closed-form and tabulated models in any arithmetic, bit for bit; everything the two variants can hold, unit wrappers included, in exact arithmetic with infinities and NaN."},
 "C12": {"note": "Exact arithmetic."},
 "C13": {"note": "False of the code: PowerLaw Emissivity ignores the stimulated-emission factor (refuted); the frequency-dependent case is an error as claimed."},
 "C14": {"note": "False of the code: NumberEmissivity of Gray (photon, neutrino) and PowerLaw omits the density (refuted, with the exact factor); bremsstrahlung's integral diverges."},
 "C15": {"note": "False of the code: BRT NumberEmissivity has no species gate, and totals are the integral divided by NSPECIES (refuted, with the exact factor)."},
 "C16": {"note": "Totals proved; at zero density NumberEmissivity is NaN (refuted)."},
 "C17": {"note": "Any arithmetic, any memory contents and buffer placement; too-short buffers shown to be out-of-bounds accesses. For the tabulated model the scalar call itself can fail; then the array call ends as the first bad bin does (C17_tabulated)."},
 "C18": {"note": "Proved in exact arithmetic for disjoint buffers; false for a shared buffer and, bit for bit, in binary64 (both refuted)."},
 "C19": {"note": "Exact arithmetic, arbitrary wrapped opacity. The full claim (each scalar method) is false of the code: the temperature derivative passes its arguments unconverted (C19_derivative_refuted), and is covariant exactly when the time and temperature units are 1 (C19_derivative_units). All other scalar methods are proved (C19_covariant)."},
 "C20": {"note": "False of the code: the derivative call does not convert its arguments; proved correct exactly when the time and temperature units are 1."},
 "C21": {"note": "Exact arithmetic, arbitrary wrapped object. The full claim (method by method) is false of the code for the neutrino temperature derivative (C21_derivative_refuted; exact condition in C21_derivative_units) and for the constants a photon mean-opacity wrapper reports (C21_mean_constants_iff). All other methods of all the wrappers, the mean-opacity ones included, are proved."},
 "C22": {"note": "Values compose; the reported runtime constants of a doubly wrapped opacity do not (refuted)."},
 "C23": {"note": "Exact arithmetic."},
 "C24": {"note": "Proved for the constants converted correctly; false for r_gas, g_newt, Fc and qe (refuted)."},
 "C25": {"note": "Proved for all constants but two; false for nu_sigma0 and Fc (refuted)."},
 "C26": {"note": "Exact arithmetic and binary64 with any libm; in binary64 the test is exact equality below 2^1000 and fails to distinguish numbers whose sum overflows (refuted)."},
 "C27": {"note": "Any arithmetic whose comparisons are those of the extended reals; instantiated at exact arithmetic and IEEE binary64 with any libm."},
 "C28": {"note": "As C27; proved for up to 2^30 groups. Beyond about 1.43e9 groups the midpoint of the binary search overflows int (refuted)."},
 "C29": {"note": "Any arithmetic, any table; through the object, the unit-converting wrapper and the variant. Reporting an error exactly when GroupOfNu does needs that the lookup itself reports none, which is proved for every table."},
 "C30": {"note": "The full claim is false of the code: in release builds the gray calls answer for group 0 of a multigroup table (PORTABLE_REQUIRE is inactive), and the three-argument AbsorptionCoefficient takes a group on the object but an averaging mode on the variant. Proved: errors in debug builds, Emissivity in every build, single-group tables, four-argument calls."},
 "C31": {"note": "Exact arithmetic. At every node the Planck mean is kappa D/(D+tiny) and the Rosseland mean D/(D rho/(alpha+tiny)+tiny) (D the sum of the weights), hence kappa to within any eps for which the guard is below eps D. The unrestricted claim is false of the code: C31_tail_refuted shows that in a group between 900 and 1000 kT/h the weights are below the guard, the Planck mean drops below a thousandth of kappa and the Rosseland mean is 0."},
 "C32": {"note": "Exact arithmetic, every coefficient function. Planck means (photons, neutrinos) and neutrino Rosseland means lie between the extremes up to the guard terms; photon Rosseland means do so when no sample is at or below the guard. The full claim is false of the code: C32_photon_refuted, a partly transparent group has a photon Rosseland mean of at least twice the largest sampled coefficient, because transparent samples are dropped from the numerator only."},
 "C33": {"note": "Exact arithmetic. C33_positive: all sampled frequencies are positive reals; C33_inside: exact condition under which they lie inside the group (up to the log guard). The full claim is false of the code: C33_unbounded_refuted (unbounded group above the thermal window samples only below the group) and C33_narrow_refuted (narrow groups far from the thermal window)."},
 "C34": {"note": "Exact arithmetic, all T, nu > 0 with h nu >= 80 kT: relative error below 1e-34 for both weights, both positive; below 80 the weights are the exact ones."},
 "C35": {"note": "Exact arithmetic for nodes, betweenness and power laws, photon and neutrino tables of every size, inside and outside the grid; in binary64 the logarithm guard is shown to vanish for arguments above a stated size."},
 "C36": {"note": "Neutrino tables come back identical in any arithmetic. Photon tables: same groups, bounds and grids, stored x becomes ToLog(FromLog x) (any arithmetic); in exact arithmetic the drift is k times the guard at nodes and bounded inside the grid. The claimed bound at every state is false between nodes (refuted)."},
 "C37": {"note": "Incompatible tables are rejected and acceptable ones load, in exact arithmetic and binary64. The full claim is false of the code: the file constructor reads past a too-short bounds array (exact condition proved), and grid sizes are not compared with dimensions."},
 "C38": {"note": "PowerLaw absorption exact; PowerLaw scattering never checks rho_ref (nu_ref twice) and NaN offsets are accepted by both (refuted)."},
 "C39": {"note": "Exact arithmetic; identities of the classes hold for all states."},
 "C40": {"note": "The statement is false of the code: the testing constructor hands AbsorptionCoefficient the temperature in MeV instead of kelvin (C40_refuted, a source whose absorption depends on the temperature), and the lookups do not check the species, so a call with PHOTON or TRACER reads outside the table (C40_species_refuted). Proved: for every source, grid and node the three emissivity tables return the source's answer plus the guard and the absorption table returns the source's answer at the divided temperature (C40_nodes); the claim as stated for temperature-independent absorption (C40_temperature_free), with the gray and BRT sources as instances (C40_sources); neutrino lookups never leave the table (C40_total); values between nodes lie between those of the surrounding nodes (C40_between); and, for any arithmetic including binary64, what every cell holds (C40_cells)."},
 "C41": {"note": "The statement is false of the code. Both datasets are read into the same buffer: the emissivity table is filled from the absorption dataset and the emissivity dataset has no effect (C41_emissivity_refuted); the absorption table is filled from memory that was never written (C41_absorption_refuted, C41_absorption_unread; the model reads such memory as an arbitrary function). The totals lack the factor ln 10 of the logarithmic spacing, so they converge to the integral divided by ln 10 (C41_integral with an explicit error bound; C41_integral_refuted: a file on which the bound for the integral itself fails). A dataset longer than the announced size overruns the buffer (C41_overrun_refuted). Proved: what every node of the loaded opacity answers, for every file (C41_load), and that a file which loads has every dataset (C41_present, any arithmetic)."},
 "C42": {"note": "Recurrence and cells in exact arithmetic for all degrees and points; cosine form on [-1,1]; GetPoints for every count below 2^30. C42_limits gives the exact boundary: from 2^30 points on 2*npoints overflows int, a negative degree reads before the array, a non-increasing interval aborts in debug builds. log10/cos of the math library are the exact functions here."},
 "C43": {"note": "Exact arithmetic, all node counts, data, polynomials and points; C43_product holds in every arithmetic."},
 "C44": {"note": "All 1120 literals of the eight tables checked (by computation inside Coq) against the exact coefficient; the nodes are enclosed by a sign-change argument. C44_layout holds in every arithmetic. The literals are read as the decimal numbers printed, not as their binary64 roundings."},
 "C45": {"note": "ratio and make_positive proved; make_bounded proved with its exact condition and shown to fail for a negative upper end and, in binary64, to lose its guard (refuted)."},
 "C46": {"note": "Proved by complete case analysis over all types and all integers."},
 "C47": {"note": "Any arithmetic, all members of all alternatives at once, with IsType, get and GetOnDevice. The full claim is false of the code in one place: the three-argument AbsorptionCoefficient of the mean photon variant reads its third argument as the averaging, the object as the group (C47_means_refuted). PrintParams and Finalize are not modelled."},
 "C48": {"note": "False of the code: C48_ignored (any arithmetic) and C48_scattering (exact): the scattering constructor takes 100 samples whatever the caller asks for; C48_refuted gives a coefficient for which the table is not that of the requested single sample. C48_absorption: the absorption constructor does honour the number."},
 "C49": {"note": "Exact arithmetic (nonnegative reals) and binary64 for any libm with correct signs (never negative); NaN at the zero-temperature and zero-density edges (refuted)."},
 "C50": {"note": "Linear and LogLinear proved in exact arithmetic (log10 of the code is the exact logarithm here, in the code it is a single-precision approximation). LogCheb returns |d| + 1e-20 at its nodes, not d: C50_logcheb is the exact value, C50_logcheb_refuted the witness."},
 "C51": {"note": "The full claim is false of the code: C51_double_precision_refuted shows that no single-precision logarithm makes BDMath::log10 accurate to double precision. C51_accuracy_partial bounds its error for every logf accurate to one ulp, C51_lower_bound shows that an error of 2^-30 occurs next to every normal float, C51_same_float that LogLinear and LogCheb only see the nearest float, C51_out_of_range what happens beyond the floats."},
 "C52": {"note": "The full claim is false of the code. Proved in any arithmetic for all tables built or loaded: with at least two nodes per axis (and, for NuLib files, the species asked for) a lookup gives a value exactly when the cell numbers are ints, undefined behaviour otherwise, never an error (C52_photon, _loaded, _neutrino, _tabulated, _nulib); in exact arithmetic the condition is a distance below 2^31 cells, met by all doubles on ordinary grids (C52_photon_exact, C52_ordinary). Refuted: single-density tables, far states on fine grids, species missing in a NuLib file."},
 "C53": {"note": "Proved in any arithmetic for the five classes, with the dataset names of sp5.hpp and an oracle of failing HDF5 calls. Save truncates first, so a failed save loses the previous file (C53_failed_save_loses); the claim does not promise otherwise. Assumes that a failed saveHDF writes nothing readable and that failures are negative, successes zero."},
 "C54": {"note": "Proved in exact arithmetic: sums for the Planck mean at the nodes; order and factors for both means at every state inside the grid, the Rosseland part for coefficients above the guard tiny that are not so large that the average is cut off by it. The Rosseland part is false of the code for coefficients that vanish at some frequencies (C54_photon_order_refuted, C54_neutrino_order_refuted)."},
 "C55": {"note": "The full claim is false of the code in its last sentence: C55_nulib_leak_refuted (two buffers per NuLib load) and C55_throw_leak_refuted (constructors that throw after allocating; a NuLib load that throws leaves the file open). C55_values and C55_careless prove the rest for all programs and say exactly what is left behind; C55_no_leak is the last sentence for programs without NuLib files and exceptions. Assumptions about DataBox are at the head of Model/Lifetime.v."},
 "C56": {"note": "In cgs units, for inputs between 2^-100 and 2^100 and results that do not underflow. Asks of exp, expm1 and pow one unit in the last place. Not covered: the tophat's absorption (C11) and number emissivity, the wrappers, averages and tables. The number integrals are compared with the code's five-digit zeta(3), the nucleon opacity with the cross section of the constants file (C25)."},
 "C57": {"note": "The full claim is false of the code for neutrino scattering: the constructor ignores the requested number of samples (C57_neutrino_scattering_refuted). Proved for photon absorption and scattering and for neutrino absorption: convergence for every continuous coefficient, and an error bound for a given number of samples, also for the fixed 100 samples of neutrino scattering. The averages are over the thermal window of the group, and hold where the integrals are at least 1e-200."},
 "C58": {"note": "The full claim is false of the code for unit-converting calls that share their frequency bins (C58_converting_race_refuted, C58_converting_results_refuted). Proved for all plain and tabulated calls, and for unit-converting calls with bins of their own; C58_race_exactly says exactly when calls race."},
 "C59": {"note": "The full claim is false of the code: release builds compare nothing (C59_release_refuted) and the neutrino scattering averages never do (C59_neutrino_scattering_refuted). Proved for debug builds of the absorption averages, for every opacity: accepted exactly when all constants are equal, every opacity in units other than 1 refused."},
 "C60": {"note": "Proved for every model and parameter range in the statement. Bremsstrahlung grows with density at a fixed temperature only, and its emission at one frequency really does fall with temperature (C60_brems_hotter_emits_less); the tophat, whose emission does not depend on density, and power laws with falling exponents are outside the statement."},
 "C61": {"note": "Binary64, any wrapped opacity. The temperature derivative of the thermal distribution is left out because its arguments are not converted at all (C20)."},
 "C62": {"note": "Photons and neutrinos, any library (C62_photons, C62_neutrinos, C62_between, C62_gray) and every table cell (C62_table, C62_nu_table); exact Planck weights with an accurate library (C62_planck). False without a lower bound on the total weight: C62_narrow_refuted gives accepted bounds whose logarithms coincide, so both means are zero."},
 "C63": {"note": "Proved in double precision. Photon and neutrino mean tables answer with the mass density times ten to the power of the exact multilinear interpolant of the stored logarithms, within an explicit number of roundings that grows with the number of cells, wherever the query lies inside the grid. A table built by the constructor gives back its own means at the nodes, and the constructors are shown to succeed. The accuracy of log10 and pow is a hypothesis (`accurate_log10`, `accurate`), met by a correctly rounding library (examples). The interpolation library Spiner is modelled as in DESIGN.md."},
 "C64": {"note": "Proved in double precision. Every lookup in the five- and four-dimensional neutrino tables answers with ten to the power of the exact multilinear interpolant of the stored logarithms, unit conversions included, within an explicit number of roundings that grows with the number of cells. The tabulating constructor is shown to succeed and its table gives back the source's answers at the nodes; the absorption is asked for at the temperature in MeV, as the code does (finding of C40). The accuracy of log10 and pow is a hypothesis, met by a correctly rounding library (examples). Spiner is modelled as in DESIGN.md."},
 "C65": {"note": "Partial: the particle emission is proved accurate to 16 + 2/ln(numax/numin) roundings for bands with ln(numax/numin) >= 2^-30, and shown not to be accurate for every band (C65_narrow_refuted: off by a factor of 1.9 or more on a band between neighbouring doubles, whatever the library). The absorption inside the band and its negligible value outside are proved in full for spectra of at least 2^-900."},
 "C66": {"note": "Proved in double precision for files of three species: the file loads, and at every node the total emissivities are the exact sums of the stored numbers over the groups to 600 (F + 30) cells + 2 NE roundings, and the emissivities per frequency the stored numbers to 600 (F + 30) cells roundings, where the data are within 10^-F..10^F. What is stored is what C41 found: the absorption dataset, and sums without the factor ln 10; that these are not the emissivities and integrals intended is C41's finding and is not excused here. Nothing is said of the absorption coefficients, which come from memory never written."},
 "C67": {"note": "The full claim is false: the logarithm is computed in single precision, and for every logf there is a frequency between two bins a decade apart, holding 0 and 1, where the answer is off by more than 2^-30 (C67_precision_refuted). C67_loglinear proves the line through the neighbouring data at the true logarithms, with an error of (6 step / 2^22 + 290 F / 2^53) cells, where step bounds the difference of neighbouring data, F the data, and cells is the extent of the logarithms in bins, for every monotone logf accurate to a unit in the last place and up to 10000 bins per decade."},
 "C68": {"note": "Every arithmetic. The three arrays of a LogCheb are disjoint; histories are sequential."},
 "C69": {"note": "Exact arithmetic; the indexer's cells and the frequencies are separate buffers of one memory. LogCheb at its nodes only, with the exact matrix (C44 bounds the printed ones)."},
 "C70": {"note": "Every arithmetic; the bins and the output are separate objects."}
}
