{"id": "C01", "title": "Photon thermal spectrum is the Planck law", "statement": "For every positive temperature and frequency, a photon opacity's ThermalDistributionOfTNu returns the finite, strictly positive Planck specific intensity 2 h nu^3 / (c^2 (exp(h nu/(k T)) - 1)) of the chosen physical constants; it is strictly increasing in temperature; at nu = 0 the call does not return a usable number.", "quantifier": "all temperatures and frequencies, all choices of positive h, k, c", "why_tests_cant": "a test samples a handful of (T, nu) points with a tolerance; positivity and monotonicity are statements about every pair of points", "anchors": ["singularity-opac/photons/thermal_distributions_photons.hpp: PlanckDistribution::ThermalDistributionOfTNu"]}
{"id": "C02", "title": "Photon DThermalDistributionOfTNuDT is the temperature derivative of the spectrum", "statement": "At every positive temperature and frequency, DThermalDistributionOfTNuDT(T, nu) equals the derivative with respect to T of ThermalDistributionOfTNu(., nu) at T.", "quantifier": "all temperatures and frequencies, all choices of positive h, k, c", "why_tests_cant": "a derivative is a limit; a test can only compare with a finite difference at sampled points", "anchors": ["singularity-opac/photons/thermal_distributions_photons.hpp: PlanckDistribution::DThermalDistributionOfTNuDT"]}
{"id": "C03", "title": "Neutrino thermal spectrum is Fermi-Dirac and its temperature derivative is right", "statement": "For every species count, positive temperature and frequency, the neutrino ThermalDistributionOfTNu is NSPECIES 2 h nu^3/(c^2 (exp(h nu/(kT)) + 1)), positive and strictly increasing in T, and DThermalDistributionOfTNuDT is its derivative with respect to T.", "quantifier": "all species counts, temperatures, frequencies and positive constants", "why_tests_cant": "limit statement over a continuum of inputs and every template parameter value", "anchors": ["singularity-opac/neutrinos/thermal_distributions_neutrinos.hpp: FermiDiracDistributionNoMu"]}
{"id": "C04", "title": "Photon frequency-integrated thermal emission is the integral of the spectrum", "statement": "For every positive temperature, ThermalDistributionOfT(T) equals 4 pi times the integral over all frequencies of ThermalDistributionOfTNu(T, nu), which is the Stefan-Boltzmann value 4 sigma T^4.", "quantifier": "all temperatures, all positive constants; integral over (0, infinity)", "why_tests_cant": "needs the value of an improper integral for every T; quadrature in a test gives only an approximation at sampled T", "anchors": ["singularity-opac/photons/thermal_distributions_photons.hpp: ThermalDistributionOfT", "singularity-opac/constants/constants.hpp: PhysicalConstants::sb"]}
{"id": "C05", "title": "Photon number emission is the integral of the number spectrum up to the digits of zeta(3)", "statement": "For every positive temperature ThermalNumberDistributionOfT(T) agrees with 4 pi times the integral over frequency of ThermalDistributionOfTNu(T,nu)/(h nu) within the relative error of the hard-coded zeta(3) (less than 3e-6).", "quantifier": "all temperatures, all positive constants; integral over (0, infinity)", "why_tests_cant": "improper integral for every T", "anchors": ["singularity-opac/photons/thermal_distributions_photons.hpp: ThermalNumberDistributionOfT"]}
{"id": "C06", "title": "Neutrino frequency-integrated energy and number emission are the integrals of the spectrum", "statement": "For every positive temperature and species count, the neutrino ThermalDistributionOfT is 4 pi times the integral of ThermalDistributionOfTNu over frequency, and ThermalNumberDistributionOfT is the corresponding integral of ThermalDistributionOfTNu/(h nu) up to the digits of zeta(3).", "quantifier": "all temperatures, species counts and positive constants; integral over (0, infinity)", "why_tests_cant": "improper integral for every T and every template parameter", "anchors": ["singularity-opac/neutrinos/thermal_distributions_neutrinos.hpp: ThermalDistributionOfT, ThermalNumberDistributionOfT"]}
{"id": "C07", "title": "Temperature and radiation energy density are mutually inverse", "statement": "TemperatureFromEnergyDensity(EnergyDensityFromTemperature(T)) = T for every T >= 0 and EnergyDensityFromTemperature(TemperatureFromEnergyDensity(E)) = E for every E >= 0, for photons and neutrinos; the photon energy density is ar T^4; a negative energy density yields NaN rather than a number.", "quantifier": "all temperatures and energy densities, photons and neutrinos, all positive constants", "why_tests_cant": "round trip over a continuum; sampled points cannot rule out a failing range", "anchors": ["singularity-opac/photons/thermal_distributions_photons.hpp: TemperatureFromEnergyDensity, EnergyDensityFromTemperature", "singularity-opac/neutrinos/thermal_distributions_neutrinos.hpp: the same"]}
{"id": "C08", "title": "Kirchhoff's law for the closed-form absorption models", "statement": "For photon Gray and PowerLaw opacities (with and without stimulated emission) and neutrino Gray and Burrows-Reddy-Thompson opacities, EmissivityPerNuOmega = AbsorptionCoefficient * ThermalDistributionOfTNu for every density, temperature and frequency.", "quantifier": "all model parameters, densities, temperatures, electron fractions, species, frequencies", "why_tests_cant": "law over a continuum of states and parameters", "anchors": ["singularity-opac/photons/gray_opacity_photons.hpp", "singularity-opac/photons/powerlaw_opacity_photons.hpp", "singularity-opac/neutrinos/gray_opacity_neutrinos.hpp", "singularity-opac/neutrinos/brt_neutrinos.hpp"]}
{"id": "C09", "title": "Kirchhoff's law for electron-proton bremsstrahlung with the guarded division", "statement": "The bremsstrahlung AbsorptionCoefficient is finite and nonnegative for every positive density, temperature and frequency, never exceeds emissivity/spectrum, and alpha * B differs from EmissivityPerNuOmega by exactly the guard term alpha*SMALL.", "quantifier": "all positive densities, temperatures and frequencies", "why_tests_cant": "absence of division blow-up for every state, including deep in the Wien tail where the spectrum underflows", "anchors": ["singularity-opac/photons/epbremsstrahlung_opacity_photons.hpp", "singularity-opac/photons/thermal_distributions_photons.hpp: AbsorptionCoefficientFromKirkhoff", "singularity-opac/base/robust_utils.hpp: ratio"]}
{"id": "C10", "title": "Isotropic models: angle-averaged absorption equals absorption, and Kirchhoff holds, also for the tophat model", "statement": "AngleAveragedAbsorptionCoefficient = AbsorptionCoefficient for every isotropic opacity in the library, including the neutrino Tophat emissivity.", "quantifier": "all models, parameters and states", "why_tests_cant": "an equality over all states and all models; the existing tests only compare scalar and vector calls of the same method", "anchors": ["singularity-opac/neutrinos/tophat_emissivity_neutrinos.hpp: AbsorptionCoefficient, AngleAveragedAbsorptionCoefficient"]}
{"id": "C11", "title": "EmissivityPerNu is 4 pi times EmissivityPerNuOmega", "statement": "For every opacity model (photon and neutrino, wrapped in a unit conversion or in the variant) and every state, EmissivityPerNu equals 4 pi EmissivityPerNuOmega.", "quantifier": "all models, parameters, states and frequencies, in any arithmetic (bit for bit where the code computes it so)", "why_tests_cant": "tests sample one state with tolerance 1e-3", "anchors": ["singularity-opac/photons/*_opacity_photons.hpp: EmissivityPerNu", "singularity-opac/neutrinos/*.hpp: EmissivityPerNu"]}
{"id": "C12", "title": "Total emissivity is the frequency integral of the spectral emissivity", "statement": "For photon Gray, PowerLaw with no frequency dependence and no stimulated-emission factor, electron-proton bremsstrahlung, and neutrino Gray, Emissivity(rho,T) equals the integral of EmissivityPerNu over all frequencies.", "quantifier": "all parameters, densities and temperatures; integral over (0, infinity)", "why_tests_cant": "improper integrals at every state", "anchors": ["singularity-opac/photons/gray_opacity_photons.hpp: Emissivity", "singularity-opac/photons/powerlaw_opacity_photons.hpp: Emissivity", "singularity-opac/photons/epbremsstrahlung_opacity_photons.hpp: Emissivity", "singularity-opac/neutrinos/gray_opacity_neutrinos.hpp: Emissivity"]}
{"id": "C13", "title": "Power-law total emissivity honours the stimulated-emission correction", "statement": "With the stimulated-emission correction switched on and nu_exp = 0, Emissivity equals the integral of EmissivityPerNu; with nu_exp != 0 both frequency-integrated calls report an error instead of a number.", "quantifier": "all parameters with nu_exp = 0, all positive states", "why_tests_cant": "improper integral at every state; the suite never combines the two options", "anchors": ["singularity-opac/photons/powerlaw_opacity_photons.hpp: Emissivity, NumberEmissivity, OpacityScale_"]}
{"id": "C14", "title": "Number emissivity is the frequency integral of the spectral emissivity over photon energy", "statement": "For Gray and PowerLaw photons and Gray neutrinos, NumberEmissivity(rho,T) equals the integral of EmissivityPerNu/(h nu), in particular it is proportional to density; for bremsstrahlung the integral diverges and the call returns +infinity.", "quantifier": "all parameters, densities and temperatures", "why_tests_cant": "improper integral at every state; a test at unit density cannot see a missing factor of density", "anchors": ["singularity-opac/photons/gray_opacity_photons.hpp: NumberEmissivity", "singularity-opac/photons/powerlaw_opacity_photons.hpp: NumberEmissivity", "singularity-opac/neutrinos/gray_opacity_neutrinos.hpp: NumberEmissivity", "singularity-opac/photons/epbremsstrahlung_opacity_photons.hpp: NumberEmissivity"]}
{"id": "C15", "title": "Burrows-Reddy-Thompson opacity: only electron neutrinos interact, and totals integrate the spectrum", "statement": "For species other than the electron neutrino every BRT coefficient and emissivity, including NumberEmissivity, is zero; for electron neutrinos Emissivity is the integral over frequency of EmissivityPerNu.", "quantifier": "all species, densities, temperatures", "why_tests_cant": "improper integral at every state and a gate over every species", "anchors": ["singularity-opac/neutrinos/brt_neutrinos.hpp: GetSigmac, GetAlphac, GetNAlphac, Emissivity, NumberEmissivity"]}
{"id": "C16", "title": "Tophat emissivity totals are the band integrals of the spectral emissivity", "statement": "For every tophat amplitude and band, EmissivityPerNu is flat strictly inside the band and zero elsewhere, Emissivity is its integral over frequency, and NumberEmissivity is the integral of EmissivityPerNu/(h nu) whenever density is positive; NU_HEAVY emits nothing.", "quantifier": "all amplitudes, bands 0 < numin < numax, electron fractions, species and positive densities", "why_tests_cant": "integral identity over a continuum of bands", "anchors": ["singularity-opac/neutrinos/tophat_emissivity_neutrinos.hpp"]}
{"id": "C17", "title": "Array calls equal scalar calls, bin by bin, and touch nothing else", "statement": "Each array overload (absorption, angle-averaged absorption, emissivity per frequency and angle, per frequency) with nbins bins writes exactly coefficient[i] = scalar call at nu_bins[i] for 0 <= i < nbins, leaves nu_bins and all other storage unchanged, does nothing for nbins <= 0, and works for any buffers at least nbins long, also when output and input are the same buffer.", "quantifier": "all models, states, bin counts, bin contents and buffer placements; any arithmetic, bit for bit", "why_tests_cant": "a loop property over every bin count and every buffer layout", "anchors": ["singularity-opac/photons/*_opacity_photons.hpp: vector overloads", "singularity-opac/neutrinos/*.hpp: vector overloads"]}
{"id": "C18", "title": "Unit-converting array calls restore the caller's frequency bins", "statement": "The NonCGSUnits array overloads return the converted scalar results bin by bin and leave nu_bins as the caller passed them, for disjoint and for shared buffers, in exact and in IEEE double arithmetic.", "quantifier": "all unit systems, bin counts, bin values, buffer placements", "why_tests_cant": "round-off and aliasing failures show up only for particular values and layouts", "anchors": ["singularity-opac/photons/non_cgs_photons.hpp: NonCGSUnits vector overloads", "singularity-opac/neutrinos/non_cgs_neutrinos.hpp: the same"]}
{"id": "C19", "title": "Unit conversion wrapper is covariant for photons", "statement": "For every choice of positive time, mass, length and temperature units and every wrapped photon opacity, each scalar method of NonCGSUnits applied to quantities expressed in code units returns the code-unit value of the wrapped method applied to the same quantities in CGS.", "quantifier": "all unit systems, all wrapped opacities, all arguments, every scalar method", "why_tests_cant": "a covariance law over all unit systems; a swapped exponent hides whenever a sampled unit happens to be 1 or a tolerance is loose", "anchors": ["singularity-opac/photons/non_cgs_photons.hpp: NonCGSUnits"]}
{"id": "C20", "title": "Unit conversion wrapper converts the temperature-derivative of the spectrum", "statement": "NonCGSUnits::DThermalDistributionOfTNuDT in code units is the derivative of NonCGSUnits::ThermalDistributionOfTNu with respect to the code-unit temperature, for photons and neutrinos.", "quantifier": "all unit systems, temperatures and frequencies", "why_tests_cant": "derivative over all unit systems; the suite never calls it through the wrapper", "anchors": ["singularity-opac/photons/non_cgs_photons.hpp: DThermalDistributionOfTNuDT", "singularity-opac/neutrinos/non_cgs_neutrinos.hpp: DThermalDistributionOfTNuDT"]}
{"id": "C21", "title": "Unit conversion wrapper is covariant for neutrinos and for scattering", "statement": "The neutrino NonCGSUnits, the photon and neutrino NonCGSUnitsS, and the mean-opacity wrappers satisfy the same covariance as the photon wrapper, method by method.", "quantifier": "all unit systems, all wrapped opacities, all arguments", "why_tests_cant": "covariance law over all unit systems", "anchors": ["singularity-opac/neutrinos/non_cgs_neutrinos.hpp", "singularity-opac/neutrinos/non_cgs_s_neutrinos.hpp", "singularity-opac/photons/non_cgs_s_photons.hpp", "singularity-opac/photons/non_cgs_photons.hpp: MeanNonCGSUnits"]}
{"id": "C22", "title": "Unit conversion wrappers form a monoid action", "statement": "Wrapping with all units equal to one changes no result; wrapping twice with units u then v gives the same results as wrapping once with the component-wise product u*v.", "quantifier": "all unit systems, all wrapped opacities, all arguments", "why_tests_cant": "an algebraic law over pairs of unit systems", "anchors": ["singularity-opac/photons/non_cgs_photons.hpp: NonCGSUnits constructor and methods"]}
{"id": "C23", "title": "Reported runtime constants describe the wrapped opacity", "statement": "The runtime constants reported by a unit-wrapped photon opacity are the ones for which its thermal spectrum is again the Planck law: evaluating the Planck formula with the reported h, k and c in code units gives exactly what the wrapper returns.", "quantifier": "all unit systems, temperatures and frequencies", "why_tests_cant": "law over all unit systems linking two independent parts of the API", "anchors": ["singularity-opac/photons/non_cgs_photons.hpp: GetRuntimePhysicalConstants", "singularity-opac/constants/constants.hpp: RuntimePhysicalConstants"]}
{"id": "C24", "title": "Runtime constants in code units have the dimensions of the quantity they name", "statement": "Each member of RuntimePhysicalConstants built with time, mass, length and temperature units equals the CGS constant divided by the code unit of its physical dimension (so, for example, the gas constant stays Avogadro times Boltzmann and Newton's constant scales as L^3 M^-1 T^-2).", "quantifier": "all positive unit systems, every constant", "why_tests_cant": "the exponent of every unit in every constant must be right for all unit values", "anchors": ["singularity-opac/constants/constants.hpp: RuntimePhysicalConstants"]}
{"id": "C25", "title": "Compile-time constants agree between unit systems", "statement": "For each constant, the CGS value equals the SI value converted by its physical dimension; derived constants satisfy their defining relations (h = 2 pi hbar, sigma = ar c/4, sigma = 2 pi^5 k^4/(15 c^2 h^3), weak cross section from the Fermi constant).", "quantifier": "every constant, every pair of length/mass/time/temperature conversion factors", "why_tests_cant": "parametric in the conversion template argument", "anchors": ["singularity-opac/constants/constants.hpp: PhysicalConstants, BaseSICODATA2010, UnitConversionSIToCGS"]}
{"id": "C26", "title": "Equality of runtime constants is an equivalence that distinguishes distinct unit systems", "statement": "operator== on runtime constants is reflexive and symmetric on finite constants and holds only if every compared constant agrees to within the documented tolerance.", "quantifier": "all pairs of constant sets", "why_tests_cant": "relation over all pairs", "anchors": ["singularity-opac/constants/constants.hpp: operator==, eps_equal"]}
{"id": "C27", "title": "Group-bound validation accepts exactly the well-formed partitions", "statement": "Constructing a multigroup mean opacity with the given bounds reports an error unless there is at least one group, all bounds are non-NaN and nonnegative, strictly increasing, and finite except possibly the last; every such list of bounds is accepted.", "quantifier": "all lists of IEEE values (including NaN and infinities) of every length", "why_tests_cant": "soundness and completeness over all lists of all lengths", "anchors": ["singularity-opac/photons/mean_photon_utils.hpp: ValidateGroupBounds, SetGroupBounds"]}
{"id": "C28", "title": "GroupOfNu returns the unique group containing the frequency", "statement": "For every accepted list of bounds and every frequency in the closed covered range, GroupOfNu terminates and returns the unique g with bounds[g] <= nu < bounds[g+1] (the last group also contains its upper bound); it is monotone in nu; frequencies outside the range, NaN included, are reported as errors.", "quantifier": "all accepted bound lists of every length, all IEEE frequencies", "why_tests_cant": "correctness and termination of a binary search for every length and every key", "anchors": ["singularity-opac/photons/mean_photon_utils.hpp: GroupOfNuImpl", "singularity-opac/photons/mean_opacity_photons.hpp: GroupOfNu"]}
{"id": "C29", "title": "Coefficient-by-frequency agrees with coefficient-by-group", "statement": "AbsorptionCoefficientFromNu, PlanckGroup...FromNu and RosselandGroup...FromNu return exactly the coefficient of the group GroupOfNu reports, for absorption and scattering, wrapped or not in unit conversion, and report an error exactly when GroupOfNu does.", "quantifier": "all tables, bounds, states and frequencies", "why_tests_cant": "composition law over all tables and frequencies", "anchors": ["singularity-opac/photons/mean_opacity_photons.hpp", "singularity-opac/photons/mean_s_opacity_photons.hpp", "singularity-opac/photons/mean_photon_variant.hpp"]}
{"id": "C30", "title": "Gray accessors never silently answer for a multigroup table", "statement": "On an object with more than one group the gray calls (PlanckMean..., RosselandMean..., AbsorptionCoefficient without a group, Emissivity) report an error rather than returning one group's value, whether called directly or through the variant, and a call spelled the same way means the same thing on the object and on the variant.", "quantifier": "all tables with more than one group, all states, debug and release builds", "why_tests_cant": "misuse that compiles and returns a plausible number; needs every build mode and table", "anchors": ["singularity-opac/photons/mean_opacity_photons.hpp: PlanckMeanAbsorptionCoefficient, Emissivity", "singularity-opac/photons/mean_photon_variant.hpp: AbsorptionCoefficient"]}
{"id": "C31", "title": "Means of a frequency-independent opacity reproduce it", "statement": "For every opacity whose absorption coefficient does not depend on frequency, both the Planck and the Rosseland mean of every group at every table node equal it, up to the two guard terms of the guarded division.", "quantifier": "all gray opacities, group bounds, sample counts, densities and temperatures", "why_tests_cant": "all sample counts and all bounds including 0 and infinity; tests use tolerance 5e-3 at a few states", "anchors": ["singularity-opac/photons/mean_opacity_photons.hpp: MeanOpacityImpl_", "singularity-opac/photons/mean_photon_utils.hpp: ThermalWeightsAtNu", "singularity-opac/neutrinos/mean_opacity_neutrinos.hpp: MeanOpacityImpl_"]}
{"id": "C32", "title": "Group means lie between the extremes of the sampled opacity", "statement": "Every Planck mean lies between the smallest and largest sampled mass opacity of the group; every Rosseland mean lies between them too.", "quantifier": "all opacities, bounds, sample counts and states", "why_tests_cant": "bound over all opacity functions, including ones that vanish on part of the group", "anchors": ["singularity-opac/photons/mean_opacity_photons.hpp: MeanOpacityImpl_", "singularity-opac/neutrinos/mean_opacity_neutrinos.hpp: MeanOpacityImpl_"]}
{"id": "C33", "title": "Group averages sample only frequencies of the group", "statement": "Every frequency at which a group mean evaluates the monochromatic opacity lies within that group's bounds, is positive and finite, for all accepted bounds and temperatures.", "quantifier": "all bounds including 0 and infinity, all temperatures, all sample counts", "why_tests_cant": "the sampling window logic has several branches depending on the ratio of bounds to temperature", "anchors": ["singularity-opac/photons/mean_photon_utils.hpp: ForEachGroupFrequencySample"]}
{"id": "C34", "title": "Wien-tail weights are indistinguishable from the exact ones", "statement": "Where the group average switches to the Wien form, the replaced weights differ from the Planck spectrum and its temperature derivative by a relative error below 1e-34, and they stay positive.", "quantifier": "all temperatures and frequencies with h nu > 80 k T", "why_tests_cant": "relative error bound over an unbounded region", "anchors": ["singularity-opac/photons/mean_photon_utils.hpp: ThermalWeightsAtNu", "singularity-opac/photons/mean_photon_types.hpp: wien_tail_x"]}
{"id": "C35", "title": "Table lookup is exact on nodes, stays between neighbours and reproduces power laws", "statement": "Mean-opacity lookup interpolates multilinearly in log density and log temperature: at a table node it returns the stored value, between nodes the logarithm lies between the surrounding values, and a table filled from a power law in density and temperature returns that power law at every positive state, inside or outside the grid.", "quantifier": "all table sizes, contents and states", "why_tests_cant": "statement about all table sizes and a continuum of query points", "anchors": ["singularity-opac/photons/mean_opacity_photons.hpp: GroupAbsorptionCoefficient_", "singularity-opac/neutrinos/mean_opacity_neutrinos.hpp"]}
{"id": "C36", "title": "Saving and reloading a mean-opacity table preserves it", "statement": "Save followed by construction from the file gives an object with the same groups, bounds and, at every state, the same coefficients; for the photon tables the drift per cycle is at most the logarithm guard.", "quantifier": "all tables, any number of save/load cycles", "why_tests_cant": "round trip over all tables and any number of cycles", "anchors": ["singularity-opac/photons/mean_opacity_photons.hpp: Save, LoadOpacityTables_, ExportOpacityTables_", "singularity-opac/neutrinos/mean_opacity_neutrinos.hpp: Save"]}
{"id": "C37", "title": "Table loading rejects malformed input and never reads outside a buffer", "statement": "Constructing a mean opacity from tables or from a file either succeeds with consistent tables or reports an error; ranks, sizes and ranges that disagree are rejected; it never reads outside the supplied bounds array.", "quantifier": "all table shapes and bounds arrays of all lengths", "why_tests_cant": "all shapes; an out-of-range read may go unnoticed in a test", "anchors": ["singularity-opac/photons/mean_opacity_photons.hpp: ValidateOpacityTables_, LoadOpacityTables_"]}
{"id": "C38", "title": "Constructors accept exactly the documented parameters", "statement": "PowerLaw absorption and PowerLaw scattering construction reports an error exactly when a reference scale (density, temperature or frequency) is not a positive number or an offset is not a nonnegative number, NaN parameters included; every other parameter tuple is accepted and stored unchanged.", "quantifier": "all parameter tuples including NaN and infinities", "why_tests_cant": "all parameter tuples", "anchors": ["singularity-opac/photons/powerlaw_opacity_photons.hpp: constructor", "singularity-opac/photons/powerlaw_s_opacity_photons.hpp: constructor"]}
{"id": "C39", "title": "Scattering coefficients are number density times cross section, isotropically", "statement": "For Gray, Thomson and PowerLaw photon scattering and Gray neutrino scattering, TotalScatteringCoefficient = (number density of scatterers) * TotalCrossSection and 4 pi DifferentialCrossSection = TotalCrossSection for every state and angle; Thomson's cross section is 8 pi/3 times the squared classical electron radius.", "quantifier": "all parameters, states, frequencies and angles", "why_tests_cant": "law over all states", "anchors": ["singularity-opac/photons/gray_s_opacity_photons.hpp", "singularity-opac/photons/thomson_s_opacity_photons.hpp", "singularity-opac/photons/powerlaw_s_opacity_photons.hpp", "singularity-opac/neutrinos/gray_s_opacity_neutrinos.hpp"]}
{"id": "C40", "title": "Tabulated neutrino opacity reproduces its source at the table nodes", "statement": "A SpinerOpacity tabulated from any neutrino opacity returns, at every node of the table and for every neutrino species, the source's absorption, emissivities and number emissivity at that state (up to the logarithm guard), and never reads outside the table for the species it accepts.", "quantifier": "all source opacities, grids, nodes and species", "why_tests_cant": "all source opacities: a temperature-independent one, as used in the suite, hides a wrong temperature argument", "anchors": ["singularity-opac/neutrinos/spiner_opac_neutrinos.hpp: testing constructor, AbsorptionCoefficient, EmissivityPerNuOmega, EmissivityPerNu, Emissivity, NumberEmissivity"]}
{"id": "C41", "title": "NuLib loading fills each table from its own dataset and integrates it", "statement": "Loading from NuLib fills absorption from the absorption dataset and emissivity from the emissivity dataset, and the tabulated total emissivity converges to the integral of 4 pi j over energy.", "quantifier": "all files and energy grids", "why_tests_cant": "the suite has no NuLib file; the quadrature weight must be right for every grid", "anchors": ["singularity-opac/neutrinos/spiner_opac_neutrinos.hpp: LoadFromNuLib_, ComputeIntegrals"]}
{"id": "C42", "title": "Chebyshev basis, nodes and cell maps are correct", "statement": "T(n, x) = cos(n arccos x) on [-1,1] for every n and satisfies the polynomial recurrence everywhere; ToUnitCell and FromUnitCell are mutually inverse; GetPoints returns n strictly increasing points inside the open interval that are exactly the zeros of T(n, .).", "quantifier": "all degrees, points and intervals", "why_tests_cant": "all degrees", "anchors": ["singularity-opac/chebyshev/chebyshev.hpp: T, ToUnitCell, FromUnitCell, GetPoints"]}
{"id": "C43", "title": "Chebyshev interpolation is exact at its nodes and for polynomials", "statement": "With the coefficient matrix of discrete Chebyshev orthogonality, MatMultiply followed by InterpFromCoeffs returns the data at every node, and reproduces every polynomial of degree below the number of nodes at every point.", "quantifier": "all node counts, data vectors, polynomials and points", "why_tests_cant": "all node counts and all polynomials", "anchors": ["singularity-opac/chebyshev/chebyshev.hpp: MatMultiply, InterpFromCoeffs"]}
{"id": "C44", "title": "The tabulated inverse Vandermonde matrices are the Chebyshev ones", "statement": "Every entry of every literal inverse Vandermonde table differs from the exact discrete-orthogonality value by at most the printed precision, and get_vmbox lays the 9-point one out so that MatMultiply reads row i, column j as the coefficient of T_i at node j.", "quantifier": "every entry of every table", "why_tests_cant": "the finite set of entries is compared with exact algebraic numbers, which floating-point tests cannot do", "anchors": ["singularity-opac/chebyshev/vandermonde.hpp"]}
{"id": "C45", "title": "Guarded arithmetic helpers keep their promises", "statement": "ratio never divides by zero, keeps the sign of the exact quotient and never exceeds it in magnitude; make_positive returns a strictly positive number; make_bounded returns a number strictly inside the interval for every nonempty interval.", "quantifier": "all finite arguments", "why_tests_cant": "all arguments including zero, negative and tiny", "anchors": ["singularity-opac/base/robust_utils.hpp: ratio, sgn, make_positive, make_bounded"]}
{"id": "C46", "title": "Radiation types and table indices correspond one to one", "statement": "Idx2RadType(RadType2Idx(t)) = t for the three neutrino species, RadType2Idx(Idx2RadType(i)) = i for every valid index, any other index is an error, and no non-neutrino type maps to a valid neutrino table index.", "quantifier": "all integers and all radiation types", "why_tests_cant": "all integers", "anchors": ["singularity-opac/base/radiation_types.hpp"]}
{"id": "C47", "title": "The variant behaves exactly as the opacity it holds", "statement": "Every call through the Opacity, SOpacity and mean-opacity variants returns what the held alternative returns; GetOnDevice yields an object with the same observable behaviour.", "quantifier": "all alternatives, methods, states", "why_tests_cant": "every method of every alternative", "anchors": ["singularity-opac/photons/photon_variant.hpp", "singularity-opac/photons/photon_s_variant.hpp", "singularity-opac/photons/mean_photon_variant.hpp", "singularity-opac/neutrinos/neutrino_variant.hpp"]}
{"id": "C48", "title": "Mean scattering tables honour the requested frequency resolution", "statement": "The neutrino MeanSOpacity built on an explicit frequency range uses exactly the caller's number of frequency samples.", "quantifier": "all sample counts, ranges and opacities", "why_tests_cant": "for smooth opacities any resolution gives nearly the same number, so tests pass", "anchors": ["singularity-opac/neutrinos/mean_s_opacity_neutrinos.hpp: explicit-grid constructor"]}
{"id": "C49", "title": "Coefficients and emissivities are never negative", "statement": "For nonnegative parameters, densities, temperatures and positive frequencies every absorption coefficient, emissivity, spectrum and scattering coefficient is a nonnegative number (neither negative nor NaN); the stimulated-emission factor lies strictly between 0 and 1.", "quantifier": "all models, parameters and physical states", "why_tests_cant": "sign and non-NaN over all physical states", "anchors": ["singularity-opac/photons/*.hpp", "singularity-opac/neutrinos/*.hpp"]}
{"id": "C50", "title": "Frequency-bin interpolators return the data at the bins and stay between them", "statement": "The Linear and LogLinear indexers return the stored datum at each bin frequency and values between neighbouring data elsewhere; LogCheb reproduces its (logged) data at the Chebyshev nodes.", "quantifier": "all bin counts, ranges, data and query frequencies", "why_tests_cant": "all bin counts and query points", "anchors": ["singularity-opac/base/indexers.hpp: Linear, LogLinear, LogCheb"]}
{"id": "C51", "title": "Log-spaced lookups position frequencies to double precision", "statement": "BDMath::log10, which positions every LogLinear and LogCheb lookup, returns the base-10 logarithm of each positive finite double to double precision, so that frequencies the caller can tell apart are not confused.", "quantifier": "every positive finite double, every implementation of the underlying single-precision logarithm", "why_tests_cant": "all doubles and all math libraries; a test compares against tolerances far above the defect", "anchors": ["utils/fast-math/logs.hpp: BDMath::log10", "singularity-opac/base/indexers.hpp: LogLinear, LogCheb"]}
{"id": "C52", "title": "Lookups stay within the tables", "statement": "Every lookup in a table the library constructed or loaded, of an existing group or a neutrino species and at any finite density, temperature, electron fraction and frequency, returns a value: no read is outside the storage, no conversion to int is undefined and no error is raised.", "quantifier": "all tables accepted by the constructors and loaders, all states, groups and species", "why_tests_cant": "out-of-bounds reads and undefined conversions usually return some number, and they occur only for particular table sizes, grid spacings and states", "anchors": ["singularity-opac/photons/mean_opacity_photons.hpp", "singularity-opac/photons/mean_s_opacity_photons.hpp", "singularity-opac/neutrinos/mean_opacity_neutrinos.hpp", "singularity-opac/neutrinos/mean_s_opacity_neutrinos.hpp", "singularity-opac/neutrinos/spiner_opac_neutrinos.hpp"]}
{"id": "C53", "title": "Saved tables are read back only as what they are", "statement": "Saving an object under a file name and constructing one of the same class from that file gives the object back (photon tables up to the drift of C36), whatever the file held before and without touching other files. Constructing an object of any other class from it is an error. If any HDF5 call fails while saving or loading, the failure is reported, and no later load gives an object mixed from old and new data.", "quantifier": "all objects of the five classes with files, all previous contents of the file system, all patterns of failing HDF5 calls", "why_tests_cant": "tests save and load one file per class with a working file system; confusion of dataset names between classes and failures of single calls are not exercised", "anchors": ["singularity-opac/base/sp5.hpp", "singularity-opac/photons/mean_opacity_photons.hpp", "singularity-opac/photons/mean_s_opacity_photons.hpp", "singularity-opac/neutrinos/mean_opacity_neutrinos.hpp", "singularity-opac/neutrinos/mean_s_opacity_neutrinos.hpp", "singularity-opac/neutrinos/spiner_opac_neutrinos.hpp"]}
{"id": "C54", "title": "Averaging respects sums, factors and order", "statement": "The Planck mean that an averaging constructor stores for c1 a1 + c2 a2 is c1 times that of a1 plus c2 times that of a2. If one absorption (or scattering) coefficient is nowhere below another, the lookups in its table are nowhere below the other's, in Planck and in Rosseland mode, at every state inside the grid and not only at its nodes. Multiplying a coefficient by c >= 1 multiplies every lookup by between 1 and c.", "quantifier": "all coefficients, grids, groups, sample counts, physical constants; all states inside the grid; photons and neutrinos", "why_tests_cant": "a relation between tables built from different opacities, over all pairs of opacities; tests average one opacity at a time", "anchors": ["singularity-opac/photons/mean_photon_utils.hpp", "singularity-opac/photons/mean_opacity_photons.hpp", "singularity-opac/photons/mean_s_opacity_photons.hpp", "singularity-opac/neutrinos/mean_opacity_neutrinos.hpp", "singularity-opac/neutrinos/mean_s_opacity_neutrinos.hpp"]}
{"id": "C55", "title": "Opacities behave as values, and their storage is freed once", "statement": "Tabulated opacities can be copied, wrapped, put in variants, moved to the device, saved, used and finalized as if they were plain values: a program that finalizes the storage behind each object at most once, and touches none afterwards, never reads or frees invalid memory, sees exactly the values that were put in, and does not disturb other memory; a program that does otherwise runs into undefined behaviour. When every object has been finalized no storage and no open file is left.", "quantifier": "all programs built from constructors (averaging, tables, files, NuLib), copies, wrappers, GetOnDevice, Finalize, lookups and Save; all outcomes of HDF5 calls; all initial memory; debug and release builds", "why_tests_cant": "memory errors and leaks show only on particular sequences of calls and failures, and the sequences are unbounded", "anchors": ["singularity-opac/photons/mean_opacity_photons.hpp", "singularity-opac/photons/mean_s_opacity_photons.hpp", "singularity-opac/neutrinos/mean_opacity_neutrinos.hpp", "singularity-opac/neutrinos/mean_s_opacity_neutrinos.hpp", "singularity-opac/neutrinos/spiner_opac_neutrinos.hpp", "singularity-opac/base/indexers.hpp", "singularity-opac/base/opac_error.hpp"]}
{"id": "C56", "title": "The closed-form results are accurate in double precision", "statement": "In IEEE double precision, with a mathematical library whose exp, expm1 and pow are within one unit in the last place, every closed-form result agrees with the textbook value to a stated number of roundings (2^-53 each): the Planck and Fermi-Dirac spectra and their temperature derivatives, the integrated thermal functions and the inverse from energy density to temperature (and the round trip), the absorption and emission of the gray, power-law, bremsstrahlung, nucleon and tophat classes, and the scattering cross sections and coefficients. The number of roundings is a constant, plus a multiple of h nu/(k T) where an exponential is taken and of the exponents of a power law.", "quantifier": "all double-precision densities, temperatures, frequencies and parameters between 2^-100 and 2^100 whose result does not underflow (h nu/(k T) at most 680), all species, all libraries with that accuracy", "why_tests_cant": "tests compare with tolerances of 1e-6 or so at a few points; cancellation, overflow of an intermediate product or a lost factor at other magnitudes goes unseen", "anchors": ["singularity-opac/photons/thermal_distributions_photons.hpp", "singularity-opac/photons/gray_opacity_photons.hpp", "singularity-opac/photons/powerlaw_opacity_photons.hpp", "singularity-opac/photons/epbremsstrahlung_opacity_photons.hpp", "singularity-opac/photons/thomson_s_opacity_photons.hpp", "singularity-opac/neutrinos/thermal_distributions_neutrinos.hpp", "singularity-opac/neutrinos/gray_opacity_neutrinos.hpp", "singularity-opac/neutrinos/brt_neutrinos.hpp", "singularity-opac/neutrinos/tophat_emissivity_neutrinos.hpp", "singularity-opac/constants/constants.hpp"]}
{"id": "C57", "title": "Refining the frequency grid makes the averages exact", "statement": "The stored Planck and Rosseland means approximate averages over a band of frequencies (for photons the group cut to the thermal window). For every continuous coefficient, asking for enough samples makes both means, at every node and in every group or species, equal to those integrals to one part in 10^33; the remainder is the floor added to every logarithm and denominator. A given number of samples is within 3 eta + 10^-32 of them, where eta is the midpoint-rule error bound of the four integrands relative to the integrals, and for integrands with a continuous derivative eta can be made as small as wanted.", "quantifier": "all positive constants, all continuous nonnegative coefficients, all partitions into groups and frequency ranges, all node grids, all sample counts; for neutrinos all continuous spectra", "why_tests_cant": "tests compare a gray opacity, for which every sample count gives the same mean, or a single sample count with a loose tolerance; whether the sum converges to the integral with the right measure is a limit", "anchors": ["singularity-opac/photons/mean_opacity_photons.hpp", "singularity-opac/photons/mean_photon_utils.hpp", "singularity-opac/neutrinos/mean_opacity_neutrinos.hpp", "singularity-opac/neutrinos/mean_s_opacity_neutrinos.hpp"]}
{"id": "C58", "title": "Array calls that run at once do not disturb one another", "statement": "When several array calls run at once, as in a parallel loop over zones, with outputs apart from one another and from the frequency bins they share, every order of their memory accesses is free of data races and out-of-bounds accesses, ends, and leaves the same memory as if each call had run alone. Calls race exactly when one may write a cell another may use: a plain call writes its output only, a unit-converting call also the caller's bins.", "quantifier": "all numbers of calls, all opacities, methods, states, buffers and memories, all interleavings of the accesses, any arithmetic", "why_tests_cant": "a race shows in a few of astronomically many interleavings, and the tests call one opacity at a time", "anchors": ["singularity-opac/photons/non_cgs_photons.hpp", "singularity-opac/neutrinos/non_cgs_neutrinos.hpp", "singularity-opac/photons/gray_opacity_photons.hpp", "singularity-opac/neutrinos/spiner_opac_neutrinos.hpp"]}
{"id": "C59", "title": "Averages are made only of opacities in the units of the table", "statement": "A mean opacity table is built only from an opacity whose physical constants and units are those of the table: an opacity with other constants, or wrapped into code units, is refused, and one with the same constants is not.", "quantifier": "all opacities, unit systems, sets of constants, grids, groups and frequency ranges; debug and release builds; photons and neutrinos, absorption and scattering", "why_tests_cant": "the tests average opacities in CGS only; the comparison is compiled out of release builds and a wrong table looks like any other", "anchors": ["singularity-opac/photons/mean_opacity_photons.hpp", "singularity-opac/neutrinos/mean_opacity_neutrinos.hpp", "singularity-opac/neutrinos/mean_s_opacity_neutrinos.hpp", "singularity-opac/constants/constants.hpp"]}
{"id": "C60", "title": "More matter, or hotter matter, never absorbs or emits less", "statement": "At no smaller density and no smaller temperature, the absorption coefficients, emissivities and thermal distributions of gray photons and neutrinos, of the charged-current neutrino absorption and of a power law with growing exponents and no stimulated emission are no smaller, the temperature recovered from a larger energy density is no smaller, and at a fixed temperature the same holds in the density for every power law growing with density and for bremsstrahlung; unit conversion keeps this, and in double precision rounding, overflow and underflow never turn an increase into a decrease.", "quantifier": "all pairs of states, frequencies, parameters in the stated domains, unit systems and species; exact arithmetic with any positive constants, and binary64 with the library's constants for every argument that is not negative (zeros, infinities and NaN included) and any mathematical library that is monotone", "why_tests_cant": "a test compares values at a few states with reference values to a tolerance, within which a local decrease cannot be seen; neighbouring doubles are far too many to compare", "anchors": ["singularity-opac/photons/gray_opacity_photons.hpp", "singularity-opac/photons/powerlaw_opacity_photons.hpp", "singularity-opac/photons/epbremsstrahlung_opacity_photons.hpp", "singularity-opac/photons/thermal_distributions_photons.hpp", "singularity-opac/photons/non_cgs_photons.hpp", "singularity-opac/neutrinos/gray_opacity_neutrinos.hpp", "singularity-opac/neutrinos/brt_neutrinos.hpp", "singularity-opac/neutrinos/thermal_distributions_neutrinos.hpp", "singularity-opac/neutrinos/non_cgs_neutrinos.hpp"]}
{"id": "C61", "title": "Converting units in double precision costs a few roundings", "statement": "A unit-converting opacity called with doubles asks the wrapped opacity at the caller's density, temperature, frequency and energy density converted to cgs to within 5, 2, 3 and 5 roundings, and converts what it returns back to code units to within at most 8; it fails exactly as the wrapped opacity does. Its array calls give the scalar results bit for bit and hand the bins back to within 4 roundings per call.", "quantifier": "all wrapped opacities, unit systems, states and bins within 2^-100..2^100, results zero or within 2^-300..2^300, all runs of up to 2^30 array calls on the same buffers; photons and neutrinos, absorption and scattering", "why_tests_cant": "the tests compare a few unit systems at a few states with a tolerance of 1e-3 or so; how rounding behaves over all units, states and repeated calls is not visible in samples", "anchors": ["singularity-opac/photons/non_cgs_photons.hpp", "singularity-opac/neutrinos/non_cgs_neutrinos.hpp", "singularity-opac/photons/non_cgs_s_photons.hpp", "singularity-opac/neutrinos/non_cgs_s_neutrinos.hpp"]}
{"id": "C62", "title": "Group means in double precision are accurate means of the samples", "statement": "The Planck and Rosseland means the averaging constructors compute in doubles are the weighted arithmetic and the weighted harmonic mean of the sampled opacities, to within about two roundings per sample, and lie between the smallest and the largest sampled opacity up to that; a gray opacity averages to itself. With an accurate mathematical library the photon means are those weighted with the exact Planck function and its exact temperature derivative, to within two roundings per sample and fifteen per unit of h nu / kT. Every cell of a built table stores the logarithms of these means. The total weight must not be tiny: group bounds may be accepted although they are so close that their logarithms are equal doubles, and then both means are zero.", "quantifier": "all opacities, densities, temperatures, group bounds and numbers of samples up to 5e8 with coefficients within 2^-100..2^100, weights below 2^400 and total weight at least 2^-500; all cells of all tables; photons and neutrinos", "why_tests_cant": "the tests average a few opacities with 100 samples and compare with a tolerance of a percent or so; the accumulation of rounding over all samples, weights and groups, and groups a few units in the last place wide, are not sampled", "anchors": ["singularity-opac/photons/mean_photon_utils.hpp", "singularity-opac/photons/mean_opacity_photons.hpp", "singularity-opac/photons/mean_s_opacity_photons.hpp", "singularity-opac/neutrinos/mean_opacity_neutrinos.hpp", "singularity-opac/neutrinos/mean_s_opacity_neutrinos.hpp"]}
{"id": "C63", "title": "Lookups in mean opacity tables in double precision are accurate interpolations", "statement": "A mean opacity looked up in doubles is the density times ten to the power of the exact multilinear interpolant of the stored logarithms, to within a number of roundings proportional to the size of the logarithms and to the fineness of the grids; it lies between the smallest and the largest of the surrounding table entries up to that. At the nodes of its own grid a table of logarithms gives back the numbers whose logarithms were stored. A table whose samples are regular at every node is built without error, and there answers the density times the weighted arithmetic and harmonic means of the sampled opacities, logarithm, storage, interpolation and power included.", "quantifier": "all tables of finite logarithms of magnitude up to 250 on grids with coordinates up to 1000 in size and up to a million cells per extent, all densities and temperatures within 2^-100..2^100 inside the grids, all groups and species; every node of every averaged table; every mathematical library with pow and log10 accurate to a unit in the last place", "why_tests_cant": "the tests look up a handful of points and compare with a relative tolerance; the rounding of the logarithms, the cell search, the interpolation weights and the power, at every point of every grid, and especially within rounding of a cell boundary, are not sampled", "anchors": ["singularity-opac/photons/mean_opacity_photons.hpp", "singularity-opac/photons/mean_s_opacity_photons.hpp", "singularity-opac/photons/mean_photon_utils.hpp", "singularity-opac/neutrinos/mean_opacity_neutrinos.hpp", "singularity-opac/neutrinos/mean_s_opacity_neutrinos.hpp"]}
{"id": "C64", "title": "Lookups in neutrino tables by energy in double precision are accurate interpolations", "statement": "A quantity looked up in a table over density, temperature, electron fraction, species and neutrino energy is ten to the power of the exact multilinear interpolant of the stored logarithms, at the logarithms of the density, of the temperature and of the energy in MeV, to within a number of roundings proportional to the size of the stored logarithms and to the fineness of the grids; the conversions from kelvin and hertz to MeV are included. The emissivity per frequency is 4 pi times that, and the totals are the same without the energy. The constructor that tabulates another opacity succeeds whenever that opacity answers with positive doubles of ordinary size at every node, and its table gives back the opacity's answers at its own nodes (for the absorption, the answers at the temperature in MeV, which is what the constructor asks for).", "quantifier": "all tables of finite logarithms of magnitude up to 250 on grids with coordinates up to 1000 in size and up to a million cells per extent, all densities, temperatures and frequencies within 2^-100..2^100 inside the grids, all electron fractions inside the grid, all three species; every node of every table built from another opacity, with densities within 10^-29..10^29, temperatures within 10^-18..10^18 MeV and energies within 10^-8..10^8 MeV; every mathematical library with pow and log10 accurate to a unit in the last place", "why_tests_cant": "the test tabulates one opacity and compares a few nodes with a relative tolerance; the rounding of the two unit conversions, the logarithms, the cell search and the power, at every point of every grid, is not sampled", "anchors": ["singularity-opac/neutrinos/spiner_opac_neutrinos.hpp"]}
{"id": "C65", "title": "Absorption and particle emission of the tophat are accurate in double precision", "statement": "In double precision the tophat's absorption from Kirchhoff's law agrees with the emissivity over the thermal spectrum (over 4 pi, see C10, unless averaged over angles) up to a number of roundings linear in h nu / (k T), and neither the floor under the emissivity nor the guard against division by zero is noticeable inside the band; outside the band and for species that are not emitted the absorption is negligible. The number of particles emitted in a band agrees with 4 pi C / h times the logarithm of the ratio of its ends, times the weight of the species, up to a few roundings, for every band.", "quantifier": "all amplitudes, band ends, densities, temperatures, frequencies and electron fractions within 2^-100..2^100, all species, all h nu / (k T) up to 680 with a spectrum of at least 2^-900; every mathematical library with exp, pow and log accurate to a unit in the last place", "why_tests_cant": "the tests evaluate one wide band at one temperature with a relative tolerance; the loss of accuracy for narrow bands and the floors are reached only by inputs no test has", "anchors": ["singularity-opac/neutrinos/tophat_emissivity_neutrinos.hpp", "singularity-opac/neutrinos/thermal_distributions_neutrinos.hpp", "singularity-opac/base/robust_utils.hpp"]}
{"id": "C66", "title": "The arithmetic of the NuLib loader is accurate in double precision", "statement": "In double precision, a NuLib file of three species with complete datasets loads, and at every node of the table the total energy and particle emissivities agree with the exact sums over the groups of the numbers the loader stores (those of C41: of the absorption dataset, and without the factor ln 10), up to at most two roundings per group and a number of roundings proportional to the number of decades of the data and to the fineness of the grids. The emissivities per frequency agree with the stored numbers in the units of the opacity up to the roundings of a lookup. The logarithms on the way in, the powers and additions of the sums, the logarithms on the way out and the lookup are all included; the guard against zero is not noticeable.", "quantifier": "all files with any number of groups and points, all data within 10^-F..10^F with F up to 170, densities within 10^-29..10^29, temperatures within 10^-18..10^18 MeV and energies within 10^-8..10^8 MeV, grids of up to a million cells per extent; every node, species and group; every content of the memory left uninitialised; every mathematical library with pow and log10 accurate to a unit in the last place", "why_tests_cant": "no test loads a NuLib file; and the error of the accumulated sums grows with the number of groups and the size of the logarithms, which a test would fix", "anchors": ["singularity-opac/neutrinos/spiner_opac_neutrinos.hpp"]}
{"id": "C67", "title": "Log-spaced frequency bins interpolate to double precision", "statement": "A LogLinear indexer in double precision answers, at every frequency in its range, with the straight line in the logarithm of frequency through the data of the two neighbouring bins, up to a number of roundings proportional to the size of the data and to the fineness of the bins.", "quantifier": "all ranges within the normal floats, all frequencies in the range, any number of bins up to 10000 per decade, all finite data of magnitude up to F with F within 2^-800..2^800, every logf that is monotone and accurate to a unit in the last place", "why_tests_cant": "the test compares one set of bins with a tolerance far above the defect; the error depends on the frequency, on the spacing of the bins and on the difference of neighbouring data", "anchors": ["singularity-opac/base/indexers.hpp: LogLinear", "utils/fast-math/logs.hpp: BDMath::log10"]}
{"id": "C68", "title": "An indexer interpolates the data written last, whatever it held before", "statement": "After any history of writes through operator[], a Linear or LogLinear indexer is the one that would be built over an array holding the values written last. A LogCheb indexer answers as one newly built from the data as they stood at the latest SetInterpCoeffs: neither earlier contents of its three arrays nor later writes show in the answer.", "quantifier": "every arithmetic, all arrays, ranges, matrices and numbers of bins, all histories of in-range writes and SetInterpCoeffs of any length, all frequencies", "why_tests_cant": "the tests fill an indexer once and interpolate once; dependence on stale scratch contents or on the order of writes shows only in histories that reuse the object", "anchors": ["singularity-opac/base/indexers.hpp: Linear, LogLinear, LogCheb", "singularity-opac/chebyshev/chebyshev.hpp: MatMultiply"]}
{"id": "C69", "title": "Filling an indexer from an opacity and interpolating gives the opacity back", "statement": "When an opacity's array call has filled the cells of an indexer, a Linear or LogLinear indexer on those cells returns the scalar call at its bins, and between them the scalar call up to half the change of the opacity allowed over one bin; a LogCheb indexer returns |scalar call| + 1e-20 at its nodes. For the gray photon emissivity the error over the range falls in proportion to the number of bins.", "quantifier": "all closed-form photon and neutrino opacities, the tabulated neutrino opacity with any tables, and the wrapped ones in any units with a nonzero time unit; all states, ranges, numbers of bins from 2 to 2^31 - 1, all memories with separate buffers, all frequencies in the range; exact arithmetic", "why_tests_cant": "the tests compare one interpolated frequency per temperature with one number of bins; accuracy between bins depends on where the frequency lies, on the opacity's slope and on the number of bins", "anchors": ["singularity-opac/base/indexers.hpp: Linear, LogLinear, LogCheb", "singularity-opac/photons/gray_opacity_photons.hpp: EmissivityPerNuOmega", "test/test_gray_opacities.cpp: Fill the indexers"]}
{"id": "C70", "title": "Array calls given indexer objects do what they do given pointers", "statement": "An array overload called with indexer objects for the bins and for the output ends exactly as it does on a memory made of the two objects' cells, leaves in the objects what that memory holds, and changes nothing else about them; Identity, Linear, LogLinear and LogCheb are such objects.", "quantifier": "every arithmetic, every array overload (plain loop, or unit conversion nested to any depth around it) and every scalar call including ones that fail, any two indexer types, all contents, all numbers of bins up to the sizes of the objects", "why_tests_cant": "the overloads are templates; the tests instantiate a few combinations of opacity and indexer on a few sizes, and never one that fails halfway", "anchors": ["singularity-opac/base/indexers.hpp: operator[]", "singularity-opac/photons/gray_opacity_photons.hpp: AbsorptionCoefficient (FrequencyIndexer, DataIndexer)", "singularity-opac/photons/non_cgs_photons.hpp: AbsorptionCoefficient (FrequencyIndexer, DataIndexer)"]}
