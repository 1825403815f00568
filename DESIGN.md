# Formal model of singularity-opac: design

Source: /repo (singularity-opac, pinned). Nothing is built or run; every definition in
`rocq/theories/Model` cites the file and lines it transcribes.

## Architecture

* `Base` — outcomes (`Ok`/`Error`/`UB`), the operations record `Ops T`, flat memory.
* `Model` — the code, function by function, polymorphic in the arithmetic (`Ops T`).
* `Inst` — instances of `Ops`: `ER` (exact reals plus +inf, -inf, NaN with IEEE rules for
  the specials, no rounding, unsigned zero) and `binary64` (Flocq, round to nearest even, any
  libm supplied as a parameter).
* `Spec` — independent specifications over the reals (Planck law, dimensions, partitions...).
* `Proofs` — lemmas.   `Props` — property theorems only, with `Print Assumptions`.

Three strengths of theorem result: *any arithmetic* (bit-for-bit, hence also for doubles),
*exact arithmetic* (`ER`; ignores rounding), and *binary64*.

## Plan per property

* **C01** Photon thermal spectrum is the Planck law — thermal_distributions_photons modelled generically; compared with a Planck function written directly over R; positivity/monotonicity by calculus on R; nu=0 evaluated in the extended-real instance.
* **C02** Photon DThermalDistributionOfTNuDT is the temperature derivative of the spectrum — Coquelicot `is_derive` of the R-valued function read off the model.
* **C03** Neutrino thermal spectrum is Fermi-Dirac and its temperature derivative is right — same as C01/C02 for Fermi-Dirac with the species count a parameter.
* **C04** Photon frequency-integrated thermal emission is the integral of the spectrum — Coquelicot improper integral (`is_RInt_gen`) with the series e^-nx and zeta(4)=pi^4/90 proved from scratch if reachable; otherwise `_partial` (T^4 scaling and value up to the constant integral).
* **C05** Photon number emission is the integral of the number spectrum up to the digits of zeta(3) — as C04 with 2 zeta(3), zeta(3) bounded numerically by rational partial sums.
* **C06** Neutrino frequency-integrated energy and number emission are the integrals of the spectrum — as C04/C05 with alternating series.
* **C07** Temperature and radiation energy density are mutually inverse — algebra over R with Rpower.
* **C08** Kirchhoff's law for the closed-form absorption models — models evaluated in the extended-real instance; equality of finite values.
* **C09** Kirchhoff's law for electron-proton bremsstrahlung with the guarded division — extended-real instance; guarded ratio lemma.
* **C10** Isotropic models: angle-averaged absorption equals absorption, and Kirchhoff holds, also for the tophat model — positive for all models but Tophat; `_refuted` for Tophat (factor 4 pi).
* **C11** EmissivityPerNu is 4 pi times EmissivityPerNuOmega — definitional in every arithmetic, plus R statement.
* **C12** Total emissivity is the frequency integral of the spectral emissivity — improper integrals; gray uses C04, bremsstrahlung an exponential integral.
* **C13** Power-law total emissivity honours the stimulated-emission correction — `_refuted`: the integral with stimulated emission is 6 instead of pi^4/15; error branch proved.
* **C14** Number emissivity is the frequency integral of the spectral emissivity over photon energy — `_refuted` for gray and power-law (density factor), bremsstrahlung divergence proved.
* **C15** Burrows-Reddy-Thompson opacity: only electron neutrinos interact, and totals integrate the spectrum — `_refuted` for number emissivity gate and for the species factor; gates proved for the rest.
* **C16** Tophat emissivity totals are the band integrals of the spectral emissivity — integrals of a step function and of c/nu over R.
* **C17** Array calls equal scalar calls, bin by bin, and touch nothing else — flat memory model with two base addresses; loop induction; any arithmetic.
* **C18** Unit-converting array calls restore the caller's frequency bins — flat memory; exact arithmetic proof; `_refuted` by a binary64 (Flocq) computation and by an aliased layout.
* **C19** Unit conversion wrapper is covariant for photons — physical dimensions as exponent vectors, unit of a dimension computed by a small spec; each method shown covariant.
* **C20** Unit conversion wrapper converts the temperature-derivative of the spectrum — `_refuted` witness plus the exact condition under which it is right.
* **C21** Unit conversion wrapper is covariant for neutrinos, for scattering and for mean opacities — as C19 for the other wrappers; `_refuted` for the temperature derivative.
* **C22** Unit conversion wrappers form a monoid action — algebra over R, componentwise units.
* **C23** Reported runtime constants describe the wrapped opacity — algebra over R joining the wrapper and the constants model.
* **C24** Runtime constants in code units have the dimensions of the quantity they name — dimension vectors as C19; `_refuted` for the members that violate it.
* **C25** Compile-time constants agree between unit systems — algebra over R for every conversion factor; `_refuted` for nu_sigma0.
* **C26** Equality of runtime constants is an equivalence that distinguishes distinct unit systems — reflexive/symmetric over R; separation bound.
* **C27** Group-bound validation accepts exactly the well-formed partitions — any arithmetic whose comparisons satisfy the IEEE order laws; instantiated at binary64 and extended reals; equivalence with an independent predicate.
* **C28** GroupOfNu returns the unique group containing the frequency — same laws; loop invariant of the binary search with fuel, fuel excluded.
* **C29** Coefficient-by-frequency agrees with coefficient-by-group — composition; any arithmetic.
* **C30** Gray accessors never silently answer for a multigroup table — release/debug flag in the model; `_refuted` for the variant and for release builds.
* **C31** Means of a frequency-independent opacity reproduce it — sums over R; exact closed form of the mean with guards; bounds.
* **C32** Group means lie between the extremes of the sampled opacity — weighted sums over R; `_refuted` for photon Rosseland with zero opacity on part of the group.
* **C33** Group averages sample only frequencies of the group — branch analysis over extended reals; `_refuted` with explicit bounds; proved for ordinary groups.
* **C34** Wien-tail weights are indistinguishable from the exact ones — R inequality and a rational lower bound for exp(80).
* **C35** Table lookup is exact on nodes, stays between neighbours and reproduces power laws — model of regular-grid multilinear interpolation; exactness and convexity over R.
* **C36** Saving and reloading a mean-opacity table preserves it — round trip on tables; n-fold drift formula for photons; exact for neutrinos; `_refuted` for exactness of photons.
* **C37** Table loading rejects malformed input and never reads outside a buffer — shape checks; buffer reads return a UB outcome; `_refuted` for short bounds.
* **C38** Constructors accept exactly the documented parameters — decision procedure equals predicate; `_refuted` for scattering rho_ref.
* **C39** Scattering coefficients are number density times cross section, isotropically — algebra over R.
* **C40** Tabulated neutrino opacity reproduces its source at the table nodes — table model; nodes; `_refuted` for temperature argument and for species outside the table.
* **C41** NuLib loading fills each table from its own dataset and integrates it — `_refuted` (dataset mix-up; ln 10 missing).
* **C42** Chebyshev basis, nodes and cell maps are correct — trigonometric identities over R, induction on the degree.
* **C43** Chebyshev interpolation is exact at its nodes and for polynomials — discrete orthogonality of cosines for every n.
* **C44** The tabulated inverse Vandermonde matrices are the Chebyshev ones — literal tables as integers; verified rational enclosures of the nodes; finite check lifted to every entry.
* **C45** Guarded arithmetic helpers keep their promises — algebra over R; `_refuted` for make_bounded.
* **C46** Radiation types and table indices correspond one to one — finite/inductive case analysis over Z.
* **C47** The variant behaves exactly as the opacity it holds — sum type dispatch; any arithmetic.
* **C48** Mean scattering tables honour the requested frequency resolution — `_refuted` with two different requested resolutions giving the same table, and dependence shown for the other constructor.
* **C49** Coefficients and emissivities are never negative — signs over R, model by model.
* **C50** Frequency-bin interpolators return the data at the bins and stay between them — interpolation model; C43 for LogCheb.
* **C51** Log-spaced lookups position frequencies to double precision — binary32/binary64 model of the
  conversion, multiplication and rounding around logf; error analysis with Flocq.
* **C52** Lookups stay within the tables — shape invariant of the boxes through every fill loop and
  loader, induction over the dimensions of a query; in any arithmetic, with the exact condition on
  the int conversions; witnesses for single densities, fine grids and missing species.
* **C53** Saved tables are read back only as what they are — files as lists of named datasets in a
  file system, the five classes' saves and loads with their dataset names and summed statuses, HDF5
  as an oracle of failing calls; any arithmetic.
* **C54** Averaging respects sums, factors and order — exact arithmetic; inequalities between the
  guarded averages at the nodes, carried to all states inside the grid by monotonicity of the
  multilinear interpolation; `_refuted` for Rosseland means of partly transparent coefficients.
* **C55** Opacities behave as values and their storage is freed once — the tables as blocks in a
  heap with shallow copies, Finalize and GetOnDevice (Model/Lifetime), against a reading without
  any heap (Spec/Values), for all client programs; both directions, with an exact count of what is
  left behind; refuted for NuLib files and for constructors that throw.
* **C56** The closed-form results are accurate in double precision — a calculus of relative errors
  (Proofs/Near: `near n a b x r`, x is r to n roundings and r lies between 2^a and 2^b) applied to
  the text of every closed form; library functions within one ulp; literals checked by computation.
* **C57** Refining the frequency grid makes the averages exact — the sums over the samples are
  midpoint sums in log10 of the frequency; their convergence for continuous integrands and their
  rate for Lipschitz ones are proved in `Proofs/Refine.v`, the effect of the floors in
  `Proofs/RefineMeans.v`; the averages themselves are integrals, in `Spec/Refinement.v`.
* **C58** Array calls that run at once do not disturb one another — the loops as sequences of reads
  and writes (Model/Threads), interleaved in every possible way; races, footprints and the result
  in Spec/Races; a general non-interference lemma and its converse in Proofs/Interleave and C58;
  `_refuted` for unit-converting calls that share their bins.
* **C59** Averages are made only of opacities in the units of the table — from C26 (the comparison is
  exact equality) in binary64 for debug builds; `_refuted` for release builds and for the neutrino
  scattering averages, which compare nothing, with the factor the table is wrong by.
* **C60** More matter, or hotter matter, never absorbs or emits less — laws of order shared by exact
  arithmetic and binary64 (Proofs/MonoLaws, beside the laws of sign), from which growth of every
  call follows by the shape of its formula; "no less" is that the comparison `<` is false, so
  NaN is allowed. The mathematical library is asked to be monotone; Proofs/CrLibm shows that a
  correctly rounding one is.
* **C61** Converting units in double precision costs a few roundings — relative-error calculus of
  Proofs/Near (as C56), over an arbitrary wrapped opacity; the factors are the powers of the units
  given by the dimension of each quantity (Spec/Units). The drift of reused bins by induction on
  the number of calls.
* **C62** Group means in double precision are accurate means of the samples — a second calculus
  (Proofs/App) that adds an absolute error to the relative one, so that terms may underflow while
  the sums are accurate; the means of doubles are compared with exact means of the same doubles
  (Spec/DoubleMeans) and, for photons, with exact Planck weights (Proofs/Weights, Perturb). The
  frequencies stay the doubles the code samples: how well they cover the group is C57's subject.
* **C63** Lookups in mean opacity tables in double precision are accurate interpolations — absolute
  errors in units of 2^-53 of the extent of an axis (Proofs/DoubleTables). The cell found in doubles
  may be a neighbour of the exact one; the interpolant is continuous, so the answer is the same up
  to the distance from the shared boundary (`no_jump`). The interpolant is a relation in
  Spec/DoubleTables that does not mention the weights or the cell search. End to end with C62.
* **C64** Lookups in neutrino tables by energy in double precision are accurate interpolations — the
  same for SpinerOpac's five- and four-dimensional tables, with the conversions from kelvin and hertz
  to MeV (Spec/DoubleSpiner gives the units), and for the constructor that tabulates an opacity.
  Tables loaded from a NuLib file are covered as far as their data and grids meet `holds64`.
* **C65** Absorption and particle emission of the tophat are accurate in double precision — the rest
  of C56 for the tophat. The particle emission has the condition number 1 / ln(numax/numin), which is
  part of the bound; "for every band" is `_refuted` by a band between neighbouring doubles.
* **C66** The arithmetic of the NuLib loader is accurate in double precision — from the file to the
  answers at the nodes, for what C41 found the loader to store. The sums are over the real grid of
  Spec/Tables. Whether they approximate the integrals is C41's question, not this one's.
* **C67** Log-spaced frequency bins interpolate to double precision — C50 for LogLinear in binary64.
  Not to double precision (`_refuted`, for every logf): the logarithm is a float (C51). What holds is
  the line with an error of 6/2^22 of the step between neighbouring data per cell of the extent.
* **C68** An indexer interpolates the data written last, whatever it held before — histories of
  writes and SetInterpCoeffs on an indexer equal a fresh construction, in every arithmetic. The arrays of
  one LogCheb are taken to be disjoint.
* **C69** Filling an indexer from an opacity and interpolating gives the opacity back — C17 and C18
  composed with C50, in exact arithmetic; the memory holds the frequencies and the cells of the indexer.
  Between the bins the bound is that of a Lipschitz function, proved to exist for Planck's law. What LogCheb
  returns between its nodes is not bounded.
* **C70** Array calls given indexer objects do what they do given pointers — the overloads are templates;
  Model/IndexerCalls runs their texts (those of Model/Threads, which C58 ties to every class) on
  objects with operator[], and the result is the one on flat memory. The two objects do not share cells.

## Trusted base

1. **Coq 8.16.1**: its kernel, including the virtual machine (`vm_compute` is used for the
   literal tables of C44 and for concrete computations, mostly in binary64), and `coqchk` as run by the gate.
   No plugins beyond those of the standard distribution; libraries: the standard library,
   Flocq (binary64) and Coquelicot (derivatives, integrals), both used for definitions and
   proved lemmas.
2. **Axioms**: no axiom, `Parameter` or section-less `Variable`/`Hypothesis` is ours.
   `ASSUMPTIONS.md` (generated by `tools/assumptions.py` from the `Print Assumptions` that follows
   every theorem in `theories/Props`) lists what each theorem depends on. Only these occur, all
   from the standard library: `ClassicalDedekindReals.sig_forall_dec`,
   `ClassicalDedekindReals.sig_not_dec`, `FunctionalExtensionality.functional_extensionality_dep`
   (the three behind the reals), and `Classical_Prop.classic`. Theorems in *any arithmetic* are
   mostly closed under the global context. The gate's wider list (30 names) counts everything in
   the loaded library files, such as the fields of sealed modules in `Rdefinitions` and
   `ssrunder`.
3. **The model is the code**: the transcription in `theories/Model` was done by hand from the
   text of /repo. Nothing was compiled or run, so no differential test backs it.
   Each definition cites its lines so that it can be compared by eye.
4. **Behaviour assumed of what is not in /repo**
   * Spiner (`Model/Spiner.v`): grid construction, node positions, index and weight of a point
     (clamped to the first and last cell), multilinear `interpToReal`, row-major storage, copies
     of data boxes, `saveHDF`/`loadHDF` as an exact round trip. Written from knowledge of the
     library, since its source is absent. Every table theorem (C29-C32, C35-C37, C40, C41, C47,
     C48, C50) relies on it. Spiner does not check bounds in release builds; the model turns an
     access outside the storage into `UB`.
   * HDF5: a call either succeeds or reports failure; a file is a finite map of datasets.
   * ports-of-call: `visit` applies the function to the alternative held, `get` fails for
     another alternative, `PORTABLE_REQUIRE` is active in debug builds only.
   * The C++ language: `int` is 32 bits with undefined overflow, evaluation has no side effects
     other than those modelled, compilers neither contract nor reassociate floating point
     operations (matters for the binary64 theorems only), templates pick the overload cited.

## What the arithmetic of a theorem means

* *Any arithmetic*: quantified over every `Ops T`, no law used. Applies to doubles bit for bit.
* *Exact* (`ER`): real numbers with +inf, -inf and NaN. Says what the formulas mean, nothing about
  rounding, overflow, underflow or signed zero. A property proved here can fail in doubles; where we
  know it does (C18, C26, C45) the failure is a theorem.
* *binary64*: Flocq's IEEE arithmetic. The functions of libm are arbitrary, or have the signs
  stated in the theorem (C49), or are within one unit in the last place of the exact value
  wherever that is a normal number (C56; true of exp, expm1 and pow in current C libraries, and not
  proved of any).

## Modelled

| Source | Model |
|---|---|
| base/radiation_types, robust_utils, indexers, opac_error | RadTypes, Robust, Indexers, IndexerCalls, `Error` of Base/Outcome |
| chebyshev/chebyshev, vandermonde | Chebyshev, Vandermonde |
| constants/constants | Constants |
| utils/fast-math/logs (BDMath::log10) | `Olog10f` of Base/Ops: the exact logarithm in `ER`; in binary64 (Inst/B64) the conversion to float, an arbitrary `logf : float -> float` (logf or fmath::log), the product with ILOG10 in double and the conversion back to float. C51 asks of logf what it needs; elsewhere it is arbitrary. |
| photons/thermal_distributions, gray, powerlaw, epbremsstrahlung | ThermalPhotons, GrayPhotons, PowerLawPhotons, EPBremsPhotons |
| photons/gray_s, thomson_s, powerlaw_s, non_cgs_s (NonCGSUnitsS) | ScatteringPhotons |
| photons/non_cgs (NonCGSUnits; MeanNonCGSUnits) | NonCGSPhotons; MeanVariants |
| photons/mean_photon_utils, mean_photon_types, mean_opacity, mean_s_opacity | MeanUtils, MeanPhotons |
| photons/photon_variant, photon_s_variant, opac, s_opac | Variants |
| photons/mean_photon_variant | MeanVariants |
| neutrinos/thermal_distributions, gray, brt, tophat | ThermalNeutrinos, OpacNeutrinos |
| neutrinos/spiner_opac (testing constructor, lookups, NuLib loader, integrals) | SpinerNeutrinos |
| base/sp5 (dataset names), the file constructors and Save of the five table classes | Files (names, statuses, failing calls); one field per dataset in MeanPhotons, MeanNeutrinos, SpinerNeutrinos |
| construction, copy, GetOnDevice, Finalize and Save of all classes that hold tables, as far as storage goes; ownership in base/indexers | Lifetime (its assumptions about Spiner's DataBox are listed at its head) |
| neutrinos/gray_s, non_cgs, non_cgs_s | NonCGSNeutrinos; MeanVariants for the mean wrappers |
| neutrinos/mean_opacity, mean_s_opacity | MeanNeutrinos |
| neutrinos/neutrino_variant, neutrino_s_variant, opac, s_opac | Variants |
| neutrinos/mean_neutrino_variant, mean_neutrino_s_variant | MeanVariants |

Simplifications that apply throughout: the argument `lambda` is dropped (no modelled class reads
it); indexers passed to array calls are plain pointers into one flat memory (C70: for separate objects this is no loss); objects are values,
so moves, references and host/device memory do not exist, and `GetOnDevice` is a copy of the data
members (Model/Lifetime and C55 are the exception, and the reason why this may be done); a build is either debug or release (flag `dbg`), where asserts and `PORTABLE_REQUIRE`
are active or absent.

## Not modelled

* `PrintParams`, default-constructed objects, `memoryStatus_` and `filename_` (a pointer into the
  caller's string that is kept but never read).
* Assignment between variants and `get` of the mean variants; device execution. Concurrency is
  modelled for the array overloads only (C58), with sequentially consistent accesses.
* photons/mean_photon_s_variant: its members call PlanckMeanTotalScatteringCoefficient, which no
  photon class has; the photon MeanNonCGSUnitsS, which calls it too, is modelled around an
  arbitrary class (MeanVariants, C21). Likewise the mean photon
  variant's PlanckMean..., RosselandMean... and Emissivity, which MeanNonCGSUnits lacks. This was
  read off the text; it was not compiled.
* The layout of a DataBox inside an HDF5 file (Spiner's), partial writes of one dataset, and what a
  failed H5Fclose leaves on the disk.
* Error messages, and which of throw, abort or exit OPAC_ERROR uses.
* The build system and tests.
* Rounding: the closed forms have the error bounds of C56, in cgs units and away from underflow,
  and the unit wrappers those of C61. The averages have those of C62, for the sampled
  frequencies, and lookups in the mean opacity tables and in the neutrino tables by energy those of
  C63 and C64, inside the grids. The totals of the NuLib loader have those of C66, at the nodes,
  and the LogLinear indexer that of C67. LogCheb has none beyond C51.
* Reading uninitialised memory is undefined behaviour in C++. For `kappa_file` in the NuLib
  loader (C41) the model is more generous: it reads an arbitrary but fixed function, to be able
  to say that the table depends on it.

## Findings: claims that are false of the modelled code

Each is a theorem ending in `_refuted` with a witness, or an exact condition. They come from
reading the text and have not been reproduced by running the code.

| Property | Finding |
|---|---|
| C01, C49 | The thermal spectrum at zero frequency, and bremsstrahlung and the Planck derivative at zero temperature, are NaN; so is PowerLaw at zero density with a negative exponent. |
| C10 | Tophat AbsorptionCoefficient has an extra factor 1/(4 pi). |
| C13 | PowerLaw Emissivity ignores the stimulated-emission factor. |
| C14 | NumberEmissivity of Gray (photons and neutrinos) and PowerLaw omits the density. |
| C15 | BRT totals are the integral divided by NSPECIES; NumberEmissivity has no species gate. |
| C16 | Tophat NumberEmissivity is NaN at zero density. |
| C18 | NonCGSUnits array calls: wrong by the time unit when bins and output share a buffer; bins are not restored bit for bit in binary64. |
| C19, C20, C21 | NonCGSUnits (photons and neutrinos) passes temperature and frequency unconverted to the derivative of the spectrum: that one method is neither covariant nor a derivative unless the time and temperature units are 1. |
| C21 | The photon MeanNonCGSUnits reports unconverted constants. |
| C22 | Runtime constants of a doubly wrapped opacity do not compose. |
| C24 | Runtime r_gas, g_newt, Fc and qe have the wrong units. |
| C25 | Compile-time nu_sigma0 and Fc have the wrong units. |
| C26 | Equality of constants holds between numbers whose sum overflows. |
| C28 | GroupOfNu overflows int from 1431655766 groups on. |
| C30, C47 | Gray calls on multigroup tables answer silently in release builds; the three-argument AbsorptionCoefficient means different things on the object and the variant. |
| C31 | Means of a gray opacity collapse in the far Wien tail. |
| C32 | The photon Rosseland mean of a partly transparent group exceeds every sample. |
| C33 | Samples of some groups lie outside the group. |
| C36 | Photon tables drift when saved and reloaded, by more between nodes than at them. |
| C37 | A short bounds array is read past its end; grid sizes are not compared with dimensions. |
| C38 | PowerLawSOpacity never checks rho_ref; NaN offsets are accepted. |
| C40 | The SpinerOpacity testing constructor asks for absorption at a temperature in MeV; PHOTON and TRACER lookups leave the table. |
| C41 | The NuLib loader reads absorption into the emissivity buffer, leaves the other uninitialised, omits ln 10 from the totals and overruns its buffer on oversized datasets. |
| C42 | GetPoints overflows int from 2^30 points on; a negative degree is out of bounds. |
| C45 | make_bounded is wrong for a negative upper end and loses its guard in binary64. |
| C48 | neutrinos::MeanSOpacity ignores the requested number of frequencies. |
| C50 | LogCheb loses the sign of the data and adds 1e-20. |
| C51 | BDMath::log10 works in single precision: frequencies with the same nearest float get the same answer, LogLinear cannot be built between them, everything from 2^128 up looks infinite and below 2^-150 zero; no logf gives better than 2^-30 absolute. |
| C52 | A table with one density is accepted from the caller or a file and made by the tabulating constructor (the averaging constructors refuse it, the NuLib reader too), and every lookup in it reads before the storage. A density, temperature, fraction or frequency 2^31 cells or more from the first node, infinite or NaN is converted to int, which is undefined. A NuLib file with fewer than three species is accepted; the missing ones are read from neighbouring cells and, in the last cell, past the end. |
| C54 | Raising a coefficient at frequencies where it was transparent lowers its Rosseland mean, photons and neutrinos. |
| C55 | Every NuLib load leaves two blocks allocated: the buffers jnu_file and kappa_file are never finalized. |
| C55 | A constructor that throws after allocating (a NaN in an average, a missing dataset, tables refused after being read from a file) leaves its tables behind; a NuLib load that throws before H5Fclose leaves the file open. |
| C55 | The constructor of SpinerOpacity from DataBoxes shares the caller's storage while its Finalize frees it: finalizing both is a double free, as is Finalize when one box was passed twice. |
| C57 | As a consequence of C48 (mean_s_opacity_neutrinos.hpp 60-63 passes the literal 100 instead of NNu), neutrino scattering means do not converge: for a strongly varying coefficient they stay a factor two or more away from the average however many samples are asked for. |
| C58 | The unit-converting array overloads rescale the caller's frequency bins in place and back, so two of them running at once on the same bins race: the bins can end multiplied by the time unit, and the opacity be evaluated at a frequency converted twice (non_cgs_photons.hpp 76-84 and the like). |
| C59 | The physical constants of the averaged opacity are compared with those of the table in debug builds only (mean_opacity_photons.hpp 316-320, mean_opacity_neutrinos.hpp 143-147), and the neutrino scattering averages never compare them: an opacity wrapped into code units is averaged as if it were in CGS, and a gray mean is wrong by the factor (mass unit)/(length unit)^2. The photon scattering averages ask the opacity for GetRuntimePhysicalConstants (mean_s_opacity_photons.hpp 258-262), which no photon scattering class has, so they compile in release builds only. |
| C62 | Group bounds a unit or two in the last place apart are accepted (mean_photon_utils.hpp 106-137) although the logarithms of both are the same double: the step of the samples is zero (mean_photon_utils.hpp 175-177) and both means of the group are zero whatever the opacity, even if log10 is correctly rounded. |
| C65 | The particle emission of the tophat takes the logarithm of a rounded ratio (tophat_emissivity_neutrinos.hpp 147): for a band between neighbouring doubles it is 1.9 times what it should be, or worse, while the energy emission is right to 9 roundings. |
| C67 | LogLinear positions a frequency with a single-precision logarithm (indexers.hpp 112-115): whatever logf is, between two bins a decade apart holding 0 and 1 some answer is off by more than 2^-30, seven decimal digits short of double precision. The error grows with the number of bins per decade. |

## Mutation testing

Wrong programs are made by editing one definition of a copy of `theories/Model` and rebuilding.
`seeded/LOG.jsonl` has one line per attempt: the edit, the claim it breaks, the theorems that no
longer compile, and what was tightened when none did.
