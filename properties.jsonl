{"id": "C01", "title": "Unit round trip", "statement": "Starting from a cluster in any physical unit system (nbody, pckms, pcmyr, kpckms, kpcgyr, galpy, WDunits, amuse), any sequence of to_units() calls that ends in the starting system leaves mass, position, velocity, time, the cluster-centre vector and the orbit vector exactly as they were.", "quantifier": "all clusters, all scale factors that are non-zero, all finite sequences of unit requests", "why_tests_cant": "the property ranges over every sequence of conversions; a test visits a handful of pairs", "anchors": ["clustertools/cluster/operations.py: to_pckms,to_kpckms,to_pcmyr,to_kpcgyr,to_nbody,to_galpy,to_WDunits,to_amuse,to_units"]}
{"id": "C02", "title": "Unit conversion is path independent", "statement": "The data of a cluster after a sequence of unit conversions depends only on the original cluster and on the last system requested, not on the systems visited on the way.", "quantifier": "all clusters and all sequences of unit requests", "why_tests_cant": "combinatorially many paths", "anchors": ["clustertools/cluster/operations.py: to_units and the functions it calls"]}
{"id": "C03", "title": "A unit request is honoured", "statement": "After to_units(u) the cluster says it is in units u for each supported u; a request not in the supported list, or on a cluster without units, changes nothing.", "quantifier": "all clusters, all requests", "why_tests_cant": "all branches of nested conversions must set the label", "anchors": ["clustertools/cluster/operations.py: to_units"]}
{"id": "C04", "title": "Stand-alone converters agree with cluster conversion", "statement": "The value returned by _convert_length/_convert_velocity/_convert_mass/_convert_time for a quantity expressed in the cluster's units is the value the same quantity has after the cluster itself is converted with to_units.", "quantifier": "all pairs of linear unit systems, all values", "why_tests_cant": "pairs x values", "anchors": ["clustertools/util/units.py: _convert_length,_convert_velocity,_convert_mass,_convert_time", "clustertools/cluster/operations.py: to_units"]}
{"id": "C05", "title": "Stand-alone converters are invertible", "statement": "Converting a length, velocity, squared velocity, time, mass or density from unit system a to b and back from b to a returns the original number.", "quantifier": "all pairs (a,b) of unit systems, all values, all scale factors", "why_tests_cant": "pairs x values x scales", "anchors": ["clustertools/util/units.py: _convert_*"]}
{"id": "C06", "title": "Gravity constant is consistent with the units", "statement": "Specific energies computed with _get_grav in pckms, pcmyr, kpckms or kpcgyr are the same physical quantity: computing energies and converting the result equals converting the cluster and computing energies; in particular the virial ratio does not depend on the unit system.", "quantifier": "all clusters, all pairs of those unit systems", "why_tests_cant": "must hold for every star configuration", "anchors": ["clustertools/util/constants.py: _get_grav", "clustertools/analysis/functions.py: energies"]}
{"id": "C07", "title": "Origin round trip and path independence", "statement": "Any sequence of to_origin() calls between centre, cluster and galaxy gives positions and velocities that depend only on the last origin; returning to the starting origin restores every position and velocity.", "quantifier": "all clusters in non-sky units, all sequences of origins", "why_tests_cant": "unbounded sequences", "anchors": ["clustertools/cluster/operations.py: to_centre,to_cluster,to_galaxy,to_origin"]}
{"id": "C08", "title": "Origin changes are rigid translations", "statement": "A change of origin never changes masses, ids, number of stars, relative positions or relative velocities of any two stars.", "quantifier": "all clusters, all pairs of stars, all origins", "why_tests_cant": "all pairs", "anchors": ["clustertools/cluster/operations.py: to_centre,to_cluster,to_galaxy"]}
{"id": "C09", "title": "Unit changes and origin changes commute", "statement": "Changing units and then origin gives the same cluster as changing origin and then units.", "quantifier": "all clusters, all unit systems, all origins", "why_tests_cant": "product of states", "anchors": ["clustertools/cluster/operations.py: to_units,to_origin"]}
{"id": "C10", "title": "Analysis calls give the cluster back", "statement": "Bracketing any sequence of unit and origin changes between save_cluster and return_cluster restores the units, the origin, and every position, velocity and mass.", "quantifier": "all clusters, all bracketed sequences", "why_tests_cant": "unbounded sequences of operations between save and return", "anchors": ["clustertools/cluster/operations.py: save_cluster,return_cluster"]}
{"id": "C11", "title": "Sky coordinates round trip", "statement": "Going to radec and back to kpckms/galaxy restores the stellar positions and velocities, provided the astrometric conversion is invertible.", "quantifier": "all clusters, all states of cached orbits", "why_tests_cant": "depends on history of cached Orbit objects", "anchors": ["clustertools/cluster/operations.py: to_radec,from_radec,to_sky"]}
{"id": "C12", "title": "Binary units round trip", "statement": "to_audays, to_sudays and to_nbody convert semi-major axes, periods and component masses consistently: any sequence ending in the starting binary units restores them.", "quantifier": "all clusters with binaries, all sequences of binary unit requests", "why_tests_cant": "unbounded sequences", "anchors": ["clustertools/cluster/operations.py: to_audays,to_sudays,to_nbody"]}
{"id": "C13", "title": "Radial order is a sorted permutation", "statement": "After analyze(sortstars=True) the radius order stored on the cluster is a permutation of the stars with non-decreasing distance from the current origin, both in 3D and in projection.", "quantifier": "all clusters and all histories of origin changes", "why_tests_cant": "depends on history", "anchors": ["clustertools/cluster/cluster.py: analyze,sortstars"]}
{"id": "C14", "title": "Half-mass radius", "statement": "The half-mass radius reported by analyze is the distance of a star such that the stars at most that far hold at least half the mass and the stars strictly closer hold less than half; likewise for the 10% radius.", "quantifier": "all clusters", "why_tests_cant": "all mass/radius distributions", "anchors": ["clustertools/cluster/cluster.py: analyze"]}
{"id": "C15", "title": "add_stars appends and keeps arrays aligned", "statement": "After add_stars all per-star arrays have the same length and row i of every array describes the same star: previous stars keep their data, new single stars are appended in the order given, new binaries are put in front, and the star count is updated.", "quantifier": "all clusters, all input arrays, all binary counts", "why_tests_cant": "all sizes and histories of adds", "anchors": ["clustertools/cluster/cluster.py: add_stars"]}
{"id": "C16", "title": "Default identifiers are unique", "statement": "When no ids are given, the ids assigned by any sequence of add_stars calls are pairwise distinct.", "quantifier": "all sequences of add_stars calls without ids", "why_tests_cant": "unbounded history", "anchors": ["clustertools/cluster/cluster.py: add_stars"]}
{"id": "C17", "title": "Adding binaries conserves mass and momentum", "statement": "The centre-of-mass rows created for binaries hold the summed mass of each pair and its mass-weighted mean position and velocity, so that total mass and total momentum of the cluster equal those of the input.", "quantifier": "all inputs with positive masses", "why_tests_cant": "all sizes", "anchors": ["clustertools/cluster/cluster.py: add_stars,add_binary_stars"]}
{"id": "C18", "title": "Scalar inputs are broadcast", "statement": "A scalar argument of add_stars gives every added star that value.", "quantifier": "all lengths", "why_tests_cant": "all sizes", "anchors": ["clustertools/cluster/cluster.py: add_stars"]}
{"id": "C19", "title": "Binaries can be added repeatedly", "statement": "Calling add_binary_stars again on a cluster that already has binaries appends the new binaries with their own centre of mass.", "quantifier": "all histories of calls", "why_tests_cant": "history", "anchors": ["clustertools/cluster/cluster.py: add_binary_stars"]}
{"id": "C20", "title": "Stellar evolution arrays are aligned with the stars", "statement": "After add_sse each stellar evolution array has as many entries as were given (or the given slots are updated), so entry i describes star i.", "quantifier": "all inputs", "why_tests_cant": "sizes", "anchors": ["clustertools/cluster/cluster.py: add_sse"]}
{"id": "C21", "title": "Subset selection is exactly the conjunction of the criteria", "statement": "The mask computed for a selection (radius, mass, velocity, energy, type, population, user mask) is true for exactly the stars that satisfy all given limits, limits inclusive; criteria not given do not exclude any star.", "quantifier": "all clusters, all combinations of limits", "why_tests_cant": "all combinations", "anchors": ["clustertools/cluster/cluster.py: _get_subset"]}
{"id": "C22", "title": "Subset selection has no side effects", "statement": "Selecting a subset does not change the arguments of the caller, so repeated calls with the same mask select the same stars.", "quantifier": "all masks and all call sequences", "why_tests_cant": "aliasing/history", "anchors": ["clustertools/cluster/cluster.py: _get_subset", "clustertools/analysis/functions.py: ckin,rtidal"]}
{"id": "C23", "title": "sub_cluster keeps rows together", "statement": "The cluster returned by sub_cluster has one star for every selected star, in order, with all its attributes, and leaves the parent cluster unchanged; a mask and its complement split the mass of the parent.", "quantifier": "all clusters, all masks", "why_tests_cant": "all masks", "anchors": ["clustertools/cluster/cluster.py: sub_cluster"]}
{"id": "C24", "title": "overlap_cluster", "statement": "A star belongs to the overlap exactly if some star of the other cluster is closer than the tolerance.", "quantifier": "all pairs of clusters, all tolerances", "why_tests_cant": "all configurations", "anchors": ["clustertools/cluster/cluster.py: overlap_cluster", "clustertools/util/recipes.py: minimum_distance"]}
{"id": "C25", "title": "nbinmaker partitions the sample", "statement": "Equal-number bins cover the sample: every element falls in exactly one bin, counts add up to the sample size, bin edges are ordered, no bin is empty; with distinct values the counts differ by at most one. A sample of equal values is rejected.", "quantifier": "all samples and bin numbers", "why_tests_cant": "all samples incl. ties", "anchors": ["clustertools/util/recipes.py: nbinmaker"]}
{"id": "C26", "title": "binmaker partitions the sample", "statement": "Equal-width bins cover [min,max]; every element is in exactly one bin, counts add up to the sample size.", "quantifier": "all samples and bin numbers", "why_tests_cant": "all samples", "anchors": ["clustertools/util/recipes.py: binmaker"]}
{"id": "C27", "title": "bin_index agrees with the bins", "statement": "bin_index returns for every element the bin whose edges contain it.", "quantifier": "all samples, all ordered edges", "why_tests_cant": "all samples", "anchors": ["clustertools/util/recipes.py: bin_index"]}
{"id": "C28", "title": "Roaming bins", "statement": "Every roaming bin lies within the data range, has lower<=upper edge, and its count is the number of elements in it; with at least as many bins as nbin every element is in one of them.", "quantifier": "all samples, all bin numbers nbin <= ntot", "why_tests_cant": "all samples", "anchors": ["clustertools/util/recipes.py: roaming_nbinmaker,roaming_binmaker"]}
{"id": "C29", "title": "Nearest-neighbour distances", "statement": "minimum_distance returns for every point the smallest distance to another point; closest_star and the neighbour distances used by analysis functions are never larger than the distance to any other star.", "quantifier": "all point sets", "why_tests_cant": "all configurations", "anchors": ["clustertools/util/recipes.py: minimum_distance,distance", "clustertools/analysis/functions.py: closest_star"]}
{"id": "C30", "title": "Power-law sampling stays in range", "statement": "power_law_distribution_function returns n values, all within [xmin,xmax], monotone in the random draw, for every exponent.", "quantifier": "all exponents, limits and random draws", "why_tests_cant": "continuum of draws", "anchors": ["clustertools/util/recipes.py: power_law_distribution_function"]}
{"id": "C31", "title": "Coordinate transforms are inverse and preserve norms", "statement": "cart_to_sphere followed by sphere_to_cart restores position and velocity, preserves distance and speed; likewise for cylindrical coordinates.", "quantifier": "all positions off the polar axis, all velocities", "why_tests_cant": "continuum", "anchors": ["clustertools/util/coordinates.py: cart_to_sphere,sphere_to_cart,cart_to_cyl,cyl_to_cart"]}
{"id": "C32", "title": "Centre of mass", "statement": "find_centre_of_mass returns the mass-weighted mean; translating or boosting the cluster translates the result; moving to it makes the mass-weighted mean zero.", "quantifier": "all clusters, all translations", "why_tests_cant": "continuum", "anchors": ["clustertools/analysis/functions.py: find_centre_of_mass", "clustertools/cluster/cluster.py: find_centre_of_mass"]}
{"id": "C33", "title": "Density centre", "statement": "The iterative density-centre finder terminates for every cluster, its result moves with the cluster under translation and is independent of the order of the stars.", "quantifier": "all clusters, translations, permutations", "why_tests_cant": "continuum, permutations", "anchors": ["clustertools/analysis/functions.py: find_centre_of_density_harfst,find_centre_of_density_casertano"]}
{"id": "C34", "title": "Gravitational potential", "statement": "Per-star potentials are the pair sums -G m/r: total is twice the sum over pairs, invariant under translation; the full and the subset computations agree on all stars.", "quantifier": "all star configurations", "why_tests_cant": "all sizes", "anchors": ["clustertools/analysis/functions.py: energies,_potential_energy,_potential_energy_subset"]}
{"id": "C35", "title": "Parallel potential is schedule independent", "statement": "The parallel potential computation gives the same result as the serial one under every interleaving of its workers.", "quantifier": "all schedules", "why_tests_cant": "schedules", "anchors": ["clustertools/analysis/functions.py: _potential_energy_parallel"]}
{"id": "C36", "title": "Energies and virial ratio", "statement": "After energies(), kinetic energies are non-negative, total energy is the sum of kinetic and potential per star, the totals are the sums (potential halved), and virialize(q) makes the virial ratio q.", "quantifier": "all clusters, all targets", "why_tests_cant": "continuum", "anchors": ["clustertools/analysis/functions.py: energies", "clustertools/cluster/cluster.py: add_energies,virialize", "clustertools/cluster/operations.py: virialize"]}
{"id": "C37", "title": "Lagrange radii", "statement": "rlagrange returns nlagrange radii, non-decreasing, the i-th enclosing at least fraction i/n of the mass and no smaller star radius doing so; the last is reached by the total mass.", "quantifier": "all clusters, all n and mass fractions, all units and origins, 3D radii; projected radii of clusters stored in their own frame", "why_tests_cant": "all configurations", "anchors": ["clustertools/analysis/functions.py: rlagrange"]}
{"id": "C38", "title": "Virial radius by inverse distance", "statement": "The full and non-full computation of the virial radius agree and are invariant under translation and scale linearly.", "quantifier": "all clusters", "why_tests_cant": "all configurations", "anchors": ["clustertools/analysis/functions.py: virial_radius_inverse_distance"]}
{"id": "C39", "title": "Mass functions count every star", "statement": "The mass bins of mass_function are consecutive and span the masses of the selected stars; the numbers in them add up to the number of selected stars; dN/dm is the (corrected) number over the bin width and alpha the least squares slope, exact on a power law.", "quantifier": "all clusters, all binnings", "why_tests_cant": "all samples", "anchors": ["clustertools/analysis/functions.py: mass_function"]}
{"id": "C40", "title": "Profiles conserve mass", "statement": "The mass profile's bins sum to the mass of the selected stars and the cumulative profile ends at it.", "quantifier": "all clusters, selections, binnings", "why_tests_cant": "all samples", "anchors": ["clustertools/analysis/profiles.py: m_prof,rho_prof"]}
{"id": "C41", "title": "Circular velocity profile uses the selected stars", "statement": "vcirc_prof computes the enclosed mass from exactly the selected stars.", "quantifier": "all clusters and selections", "why_tests_cant": "all masks and orders", "anchors": ["clustertools/analysis/profiles.py: vcirc_prof"]}
{"id": "C42", "title": "Tidal radius iteration", "statement": "rtidal terminates, uses only the selected stars within the current radius, and unless the iteration limit is reached the radius agrees, to the tolerance asked for, with the tidal radius of the mass enclosed; the cluster is unchanged.", "quantifier": "all clusters", "why_tests_cant": "unbounded iteration", "anchors": ["clustertools/analysis/functions.py: rtidal"]}
{"id": "C43", "title": "Adding rotation", "statement": "add_rotation(q) keeps positions, speeds and masses; with q=1 no star counter-rotates, with q=0 nothing changes; only tangential signs flip.", "quantifier": "all clusters, all random draws", "why_tests_cant": "all draws", "anchors": ["clustertools/cluster/operations.py: add_rotation"]}
{"id": "C44", "title": "Snapshot files are read column by column", "statement": "Reading a table assigns each named column to its quantity for every row; absent columns get the documented default; writing with snapout and reading back restores the stars.", "quantifier": "all tables and column orders", "why_tests_cant": "all permutations of columns, all sizes", "anchors": ["clustertools/io/snapshot.py: _get_snapshot", "clustertools/util/output.py: snapout"]}
{"id": "C45", "title": "Gyrfalcon parser", "statement": "Loading a gyrfalcON (NEMO text) file gives star j the mass, position, velocity and extra columns of the j-th data line, as many stars as the header declares and the time of the header; each advance_cluster then gives the next record of the file, with the matching line of the orbit file, until the file ends.", "quantifier": "all files", "why_tests_cant": "all sizes", "anchors": ["clustertools/io/gyrfalcon.py"]}
{"id": "C46", "title": "OUT3 and OUT33 binary readers", "statement": "Reading a well-formed OUT3 (OUT33) record returns exactly the scalars, masses, positions, velocities and ids encoded in it, and leaves the file position at the next record; a cut or wrongly marked record raises. Each advance_cluster gives the next record of all the NBODY6 files together: stars, scale factors, time, centre, orbit, stellar evolution, until the files end.", "quantifier": "all records, all series", "why_tests_cant": "all sizes and lengths", "anchors": ["clustertools/io/nbody6.py: _get_nbody6, _get_nbody6_out3, _get_nbody6_out33", "clustertools/io/load.py: load_cluster, advance_cluster"]}
{"id": "C47", "title": "NBODY6 stellar evolution arrays are aligned", "statement": "The arrays the stellar evolution reader gives the cluster have one entry per star, binaries first (luminosity of a binary: the sum), each section of the files being consumed.", "quantifier": "all files", "why_tests_cant": "all sizes", "anchors": ["clustertools/io/nbody6.py: _get_nbody6se"]}
{"id": "C48", "title": "Advancing visits snapshots in order", "statement": "Calling advance_cluster after load_cluster(nsnap=n) on a series of snapshot files loads snapshot n+1, then n+2, and so on, every file once and in order, with the columns, units and origin of the load, the matching file name and the matching line of the orbit file.", "quantifier": "all numbers of advances, all files", "why_tests_cant": "unbounded history", "anchors": ["clustertools/io/load.py: advance_cluster,_get_advanced_kwargs,_get_filename", "clustertools/io/orbit.py: _get_cluster_orbit"]}
{"id": "C49", "title": "Tail rotation", "statement": "to_tail rotates positions and velocities so that the cluster's velocity points along the x axis and all distances and speeds are preserved.", "quantifier": "all clusters with non-zero orbital velocity", "why_tests_cant": "continuum", "anchors": ["clustertools/tidaltail/tails.py: to_tail"]}
{"id": "C50", "title": "Path matching", "statement": "orbital_path_match assigns to every star the path point closest to it and reports that distance.", "quantifier": "all stars and paths", "why_tests_cant": "all configurations", "anchors": ["clustertools/analysis/orbits.py: orbital_path_match", "clustertools/tidaltail/tails.py: tail_path_match"]}
{"id": "C51", "title": "Characteristic mass function is continuous", "statement": "meq_func is positive, strictly decreasing, and continuously differentiable at meq: its logarithmic slope is -m/(2 meq) below meq and -1/2 above.", "quantifier": "all masses and parameters", "why_tests_cant": "continuum", "anchors": ["clustertools/analysis/functions.py: meq_func"]}
{"id": "C52", "title": "N-body scales", "statement": "reset_nbody_scale returns scales in which the total mass is one and which are mutually consistent, leaving the cluster unchanged; converting to nbody with them gives unit mass.", "quantifier": "all clusters", "why_tests_cant": "continuum", "anchors": ["clustertools/cluster/operations.py: reset_nbody_scale"]}
{"id": "C53", "title": "Power-law sampling follows the requested law", "statement": "power_law_distribution_function draws from the law with density proportional to x^alpha on [xmin,xmax].", "quantifier": "all exponents, limits and draws", "why_tests_cant": "a distribution over a continuum of draws", "anchors": ["clustertools/util/recipes.py: power_law_distribution_function"]}
{"id": "C54", "title": "Binned means", "statement": "mean_prof and smooth return for each non-empty bin the mean and standard deviation (smooth also extremes) of exactly the y values whose x lies in the bin; every value is used once.", "quantifier": "all samples, bin numbers and bin types", "why_tests_cant": "all samples", "anchors": ["clustertools/util/recipes.py: mean_prof,smooth"]}
{"id": "C55", "title": "Interpolation", "statement": "interpolate is the straight line through its two points, and interpolating in y is the inverse of interpolating in x.", "quantifier": "all points", "why_tests_cant": "continuum", "anchors": ["clustertools/util/recipes.py: interpolate"]}
{"id": "C56", "title": "Order and radii after adding stars", "statement": "add_stars with sortstars=True leaves the radial order sorted and the half-mass and 10% radii correct for the enlarged cluster; (with the default sortstars=False the order is that of the old stars only, see the refutation).", "quantifier": "all clusters, all added stars", "why_tests_cant": "all sizes", "anchors": ["clustertools/cluster/cluster.py: add_stars,analyze,sortstars"]}
{"id": "C57", "title": "The found centre becomes the origin", "statement": "After find_centre, find_centre_of_density or find_centre_of_mass on a cluster with origin cluster or galaxy, to_centre moves exactly the found point (position and velocity) to the origin.", "quantifier": "all clusters, all found centres", "why_tests_cant": "continuum of states", "anchors": ["clustertools/cluster/cluster.py: _set_centre,find_centre", "clustertools/cluster/operations.py: to_centre"]}
{"id": "C58", "title": "The sigma-clipped centre is always found", "statement": "find_centre(density=False) returns for every cluster and clipping factor, the mass-weighted mean of more than nsphere of the selected stars.", "quantifier": "all clusters, all nsigma, all nsphere", "why_tests_cant": "unbounded iteration", "anchors": ["clustertools/analysis/functions.py: find_centre"]}
{"id": "C59", "title": "Centre searches honour their arguments and restore the cluster", "statement": "The centre methods use the requested algorithm and selection and leave units, origin and data of the cluster unchanged.", "quantifier": "all clusters and arguments", "why_tests_cant": "all states", "anchors": ["clustertools/analysis/functions.py: find_centre,find_centre_of_density", "clustertools/cluster/cluster.py: find_centre_of_density"]}
{"id": "C60", "title": "Projected Lagrange radii do not depend on the stored origin", "statement": "rlagrange(projected=True) gives the same radii whether the cluster is stored relative to the galaxy or to its own centre.", "quantifier": "all clusters, all n", "why_tests_cant": "needs every configuration of stars and every orbit", "anchors": ["clustertools/analysis/functions.py: rlagrange"]}
{"id": "C61", "title": "Velocity and anisotropy profiles describe the stars of each bin", "statement": "sigv_prof, v_prof, v2_prof and beta_prof return, per radial bin, the dispersion, mean, mean square or anisotropy of the requested velocity component over exactly the selected stars of that bin (0 for at most three), measured from the cluster whatever origin is stored, and leave the cluster unchanged.", "quantifier": "all clusters, selections, binnings, components, stored origins", "why_tests_cant": "needs every set of velocities and every mask", "anchors": ["clustertools/analysis/profiles.py: sigv_prof,v_prof,v2_prof,beta_prof"]}
{"id": "C62", "title": "normalize=True expresses radii in half-mass radii", "statement": "With normalize=True the radii of m_prof and rho_prof are divided by the cluster's half-mass radius (the projected one for projected profiles).", "quantifier": "all clusters, stored origins, projections", "why_tests_cant": "all states", "anchors": ["clustertools/analysis/profiles.py: m_prof,rho_prof"]}
{"id": "C63", "title": "Bins given by the caller hold all the selected stars", "statement": "With bins given by the caller, m_prof counts every selected star exactly once: stars outside the bins go to the end rows.", "quantifier": "all clusters, selections, bin edges", "why_tests_cant": "all edges", "anchors": ["clustertools/analysis/profiles.py: m_prof", "clustertools/util/recipes.py: bin_index"]}
{"id": "C64", "title": "Velocity dispersion against mass", "statement": "eta_function bins the selected stars by mass, reports for each bin the dispersion of the speeds of exactly its stars, and fits the slope of log sigma against log m; the cluster is unchanged.", "quantifier": "all clusters, selections, numbers of bins", "why_tests_cant": "all samples", "anchors": ["clustertools/analysis/functions.py: eta_function"]}
{"id": "C65", "title": "Radial profile of the mass function slope", "statement": "Row k of alpha_prof is the slope of the mass function of the selected stars whose radius lies in bin k.", "quantifier": "all clusters, selections, bins", "why_tests_cant": "all samples", "anchors": ["clustertools/analysis/profiles.py: alpha_prof"]}
{"id": "C66", "title": "Radial profile of the dispersion slope", "statement": "Row k of eta_prof is the slope of the velocity dispersion with mass of the selected stars whose radius lies in bin k, each star in one row.", "quantifier": "all clusters, selections, bins", "why_tests_cant": "all samples", "anchors": ["clustertools/analysis/profiles.py: eta_prof"]}
{"id": "C67", "title": "Relaxation times", "statement": "half_mass_relaxation_time and relaxation_time are Spitzer's formulas for the half-mass radius, masses and speeds of the stars in physical units, independent of the units and origin the cluster is stored in, and leave the cluster unchanged.", "quantifier": "all clusters, stored units and origins, radii", "why_tests_cant": "all states", "anchors": ["clustertools/analysis/functions.py: half_mass_relaxation_time,relaxation_time"]}
{"id": "C68", "title": "Orbits given in other units", "statement": "add_orbit(x,...,ounits=u) stores the same physical position, velocity and time in the units of the cluster, and leaves the stars alone.", "quantifier": "all pairs of unit systems, all values", "why_tests_cant": "continuum, all pairs", "anchors": ["clustertools/cluster/cluster.py: add_orbit"]}
{"id": "C69", "title": "Files written for other codes", "statement": "fortout, sseout and gyrout write one row per star with the physical mass, position and velocity of that star in the frame and units of the target code (and the stellar evolution data), and leave the cluster unchanged.", "quantifier": "all clusters in all units and origins", "why_tests_cant": "all sizes, all frames", "anchors": ["clustertools/util/output.py: sseout,fortout,gyrout"]}
{"id": "C70", "title": "Binaries keep Kepler's third law", "statement": "A binary read from fort.82 obeys Kepler's third law in the units of the file if and only if the period, semi-major axis and masses stored in the cluster obey it in N-body units.", "quantifier": "all binaries and scale factors", "why_tests_cant": "continuum", "anchors": ["clustertools/io/nbody6.py: _get_nbody6", "clustertools/cluster/cluster.py: add_nbody6, add_bse"]}
{"id": "C71", "title": "Progress along a path", "statement": "orbital_path_match reports for every star the distance along the path between the progenitor's present point and the point nearest to the star.", "quantifier": "all stars and paths", "why_tests_cant": "all configurations", "anchors": ["clustertools/analysis/orbits.py: orbital_path_match"]}
{"id": "C72", "title": "Orbital path", "statement": "orbital_path returns nt points at equally spaced times from -tfinal to tfinal, each the place and motion of the cluster (or of its centre) at that time in the given potential, in the units of the cluster; the point at time zero is where the cluster is; the cluster is left unchanged.", "quantifier": "all clusters, stored units and origins, all tfinal and nt, all potentials (as flows)", "why_tests_cant": "continuum of orbits and all states", "anchors": ["clustertools/analysis/orbits.py: orbital_path, initialize_orbit"]}
{"id": "C73", "title": "Tail path", "statement": "tail_path cuts the times of the cluster's orbit into adjacent bins and returns, for every bin holding stars (within dmax of the orbit), the mean position and velocity of exactly these stars in the units of the cluster; every star is in one bin; the cluster is left unchanged. tail_path_match matches stars to that path in the same units.", "quantifier": "all clusters, bin numbers, bin types, dmax", "why_tests_cant": "all configurations of stars", "anchors": ["clustertools/tidaltail/tails.py: tail_path, tail_path_match"]}
{"id": "C74", "title": "Interpolating the cluster's orbit", "statement": "interpolate_orbit gives the place and motion of the cluster after tfinal in the given potential, in the units of the cluster; the method moves the cluster there, keeping its stars' places and motions relative to it.", "quantifier": "all clusters, tfinal, potentials (as flows)", "why_tests_cant": "continuum of orbits and all states", "anchors": ["clustertools/analysis/orbits.py: interpolate_orbit", "clustertools/cluster/cluster.py: interpolate_orbit"]}
{"id": "C75", "title": "Interpolating the stars' orbits", "statement": "interpolate_orbits gives the place and motion of every star after tfinal in the given potential, in the units of the cluster, and the cluster's recorded radii, speeds and order agree with the new positions.", "quantifier": "all clusters, tfinal, potentials (as flows)", "why_tests_cant": "continuum of orbits and all states", "anchors": ["clustertools/analysis/orbits.py: interpolate_orbits", "clustertools/cluster/cluster.py: interpolate_orbits"]}
{"id": "C76", "title": "Limiting radius", "statement": "rlimiting returns the radius where the cluster's density profile (equal-number bins) falls to the galaxy's density at the place asked, interpolated between neighbouring bins, in the units of the cluster whatever they are, and leaves the cluster as it was.", "quantifier": "all clusters, units, origins, potentials, places", "why_tests_cant": "real-valued profiles and all states", "anchors": ["clustertools/analysis/functions.py: rlimiting, _rho_prof"]}
{"id": "C77", "title": "Core radius", "statement": "rcore returns the density-weighted root mean square distance from the centre (casertano), or where the profile drops to a third or half of its central value (isothermal), in the units of the cluster, and leaves the cluster as it was.", "quantifier": "all clusters, units, origins, numbers of neighbours", "why_tests_cant": "nearest neighbours and frames over every configuration", "anchors": ["clustertools/analysis/functions.py: rcore"]}
{"id": "C78", "title": "Virial radius by critical density", "statement": "virial_radius with method critical_density returns the radius where the mean density inside falls to overdens times the critical density for the H and Om given, in the units of the cluster, and leaves it as it was.", "quantifier": "all clusters, units, H, Om, overdens", "why_tests_cant": "real-valued profile, all frames", "anchors": ["clustertools/analysis/functions.py: virial_radius_critical_density"]}
{"id": "C79", "title": "Equipartition mass and kinematic concentration", "statement": "meq_function fits the dispersions in mass bins of exactly the stars asked for; ckin is the ratio of the equipartition mass within the half-mass radius to that at it, over the stars the caller selected, in every frame; both leave the cluster and the caller's mask as they were.", "quantifier": "all clusters, frames, limits, masks", "why_tests_cant": "every mask, frame and radius", "anchors": ["clustertools/analysis/functions.py: meq_function, ckin, eta_function"]}
{"id": "C80", "title": "Sub-clusters with a new centre and new scales", "statement": "sub_cluster(reset_centre=True) gives the stars, data, units and origin of the plain sub-cluster but records the density centre of the selected stars as its centre, so that to_centre goes there; reset_nbody makes the total mass and the virial (or 4/3 half-mass) radius of the selected stars the N-body scales without moving any star in the galaxy; reset_nbody_mass and reset_nbody_radii change only the scale they name.", "quantifier": "all clusters, frames, units, selections, combinations of options", "why_tests_cant": "every frame, unit system, selection and combination of options", "anchors": ["clustertools/cluster/cluster.py: sub_cluster, reset_nbody_scale, find_centre"]}
{"id": "C81", "title": "Centring on the sky by projection", "statement": "to_cluster and to_centre with centre_method='orthographic' or 'VandeVen', on a cluster given on the sky, put each star at its orthographic projection about the origin chosen (the distance from the origin is the sine of the angle between the two directions; orthographic also turns the proper motions into the rates of the projected place) after any history of requests, the last method named being kept; without a method the operations are the ones used elsewhere. The motion taken off is that of the origin chosen.", "quantifier": "all clusters, sequences of requests, origins, methods, star and centre directions", "why_tests_cant": "every sequence of requests and every pair of directions on the sky", "anchors": ["clustertools/cluster/operations.py: to_cluster, to_centre, to_galaxy, to_radec, orthographic, VandeVen", "clustertools/cluster/cluster.py: to_cluster, to_centre"]}
{"id": "C82", "title": "Energies of some of the stars", "statement": "energies(ids=...) returns, for the stars named by id or by an array of booleans and for no others, the kinetic energy relative to the cluster and the potential in the field of all the stars, leaves the cluster as it was, and records these values with zero for the other stars; the answer follows the request, and virialize afterwards still reaches its target.", "quantifier": "all clusters, units, origins, requests, softenings", "why_tests_cant": "every request and every cluster", "anchors": ["clustertools/analysis/functions.py: energies, _potential_energy", "clustertools/cluster/cluster.py: energies, add_energies, virialize"]}
{"id": "C83", "title": "Tapered mass functions", "statement": "tapered_mass_function and tapered_dx_function return the same rows as the plain mass function and distribution function, and the parameters of the law A m^alpha (1-exp(-(m/mc)^beta)) that fits the densities best with A not negative and mc between the smallest and largest value (or within the bounds given); densities on such a law are met exactly; the cluster is left as it was; the number of values returned is the same for every cluster, and the mass_function method returns the slope for every input, corrections included.", "quantifier": "all clusters, selections, masks, corrections, bounds, numbers of bins, parameters", "why_tests_cant": "every sample and every set of parameters", "anchors": ["clustertools/analysis/functions.py: tapered_mass_function, tpl_func", "clustertools/util/recipes.py: tapered_dx_function", "clustertools/cluster/cluster.py: mass_function"]}
{"id": "C84", "title": "Radial profile of the equipartition mass", "statement": "meq_prof gives, in consecutive radial bins over the stars asked for, the equipartition mass of the stars of that bin and of no others; rows without a fit are told apart; the logarithmic gradient is that of the values; the cluster is left as it was.", "quantifier": "all clusters, selections, masks, numbers of bins, ways to bin, fitting routines", "why_tests_cant": "every sample and every bin", "anchors": ["clustertools/analysis/profiles.py: meq_prof, eta_prof", "clustertools/analysis/functions.py: eta_function"]}
{"id": "C85", "title": "NBODY6++ snapshots", "statement": "Files conf.3_n: load_cluster and then advance_cluster k times give the stars of the file k intervals on: binaries by their centre of mass, single stars as written, the scale factors, densities, kinetic and potential energies, the number of binaries; an orbit file is read at line nsnap/dtout; no file gives an empty cluster; marks that differ and files cut short raise; every interval and directory of snapshots works.", "quantifier": "all files, decoders, numbers of binaries and single stars, intervals, directories, numbers of steps", "why_tests_cant": "every file content and every number of steps", "anchors": ["clustertools/io/nbody6pp.py: _get_nbody6pp, _get_nbody6pp_conf3", "clustertools/io/load.py: load_cluster, advance_cluster"]}
{"id": "C86", "title": "NBODY6++ stellar evolution", "statement": "With bev.82 and sev.83 files, binaries have the larger type of their two stars, single stars their own type, radius and luminosity at the row of the star with that address, and the table of binaries has the identifiers, types, eccentricities, luminosities and radii of the file, with periods, axes and masses in units of the cluster, whatever the number of rows.", "quantifier": "all files, numbers of rows, orders of rows", "why_tests_cant": "every file content", "anchors": ["clustertools/io/nbody6pp.py: _get_nbody6pp, _get_nbody6pp_ev", "clustertools/cluster/cluster.py: StarCluster.add_sse, add_bse"]}
{"id": "C87", "title": "Clusters on a galpy orbit", "statement": "load_cluster with orbit= puts the cluster at the position and velocity of the orbit at the time of the snapshot, expressed in the units of the cluster, and leaves its stars, masses, identifiers, time, units and origin as they are, with the density centre found from the stars about the orbit; advance_cluster with orbit= does the same for the next snapshot; whatever the units.", "quantifier": "all orbits, clusters, times, unit systems, origins, scale factors", "why_tests_cant": "every orbit, time and unit system", "anchors": ["clustertools/io/load.py: load_cluster, advance_cluster", "clustertools/cluster/cluster.py: StarCluster.add_orbit, find_centre"]}
{"id": "C88", "title": "Clusters from astropy tables", "statement": "load_cluster('astropy_table') without a column mapper finds each coordinate, the masses and the identifiers by the documented names, ignoring case and in order of preference, and raises if a coordinate is missing; with a mapper it takes the named columns. The stars are the rows of the table in the requested units and origin, with unit masses and identifiers 0, 1, 2, ... where there is no column; about the Galaxy the cluster is at its density centre, or at the point of the orbit file. The mapper can be used again.", "quantifier": "all tables, column orders, names and cases, mappers, units and origins", "why_tests_cant": "every table and every mapper", "anchors": ["clustertools/io/astropy_table.py: _get_astropy_table", "clustertools/io/load.py: load_cluster", "clustertools/io/orbit.py: _get_cluster_orbit"]}
{"id": "C89", "title": "Clusters from galpy Orbits", "statement": "load_cluster('galpy') makes star i of object i: its position and velocity in the requested units, the mass given for it (1 by default, one number for all, or an array), identifier i + 1; units, origin and time are as requested and the centre is the density centre. An orbit file puts the cluster on its orbit.", "quantifier": "all Orbits, scales ro and vo, masses, units and origins", "why_tests_cant": "every list of objects, every pair of scales", "anchors": ["clustertools/io/galpydf.py: _get_galpy_orbits", "clustertools/io/load.py: load_cluster"]}
{"id": "C90", "title": "Clusters from AMUSE particles", "statement": "load_cluster('amuse') makes star i of particle i, with the same physical position, velocity and mass in the requested units, and its key; units, origin and time are as requested and the centre is the density centre. Every documented unit system and an orbit file are accepted.", "quantifier": "all particle sets, units and origins", "why_tests_cant": "every particle set", "anchors": ["clustertools/io/amuse.py: _get_amuse_particles", "clustertools/util/units.py: _convert_amuse", "clustertools/io/load.py: load_cluster"]}
{"id": "C91", "title": "King models: potential and concentration", "statement": "c_to_w0 and w0_to_c interpolate the tabulated King models along straight lines, are exact at the entries, increasing, and inverse to each other.", "quantifier": "all central potentials and all concentrations", "why_tests_cant": "every real number", "anchors": ["clustertools/io/limepydf.py: c_to_w0, w0_to_c"]}
{"id": "C92", "title": "Clusters sampled from limepy models", "statement": "load_cluster('limepy', ...) gives the stars limepy samples from the model the keywords ask for (W0 or phi0, g, M, the first radius given of rt, rv, rh, rm, r0, rc), in the number asked for (N, or the mass over mbar), with identifiers 1 to N, at time zero, in the units and about the origin asked for, with the density centre recorded, and on the orbit given.", "quantifier": "all keyword combinations, samples, units, origins and orbits", "why_tests_cant": "the sample is random and the keywords combine freely", "anchors": ["clustertools/io/limepydf.py: _get_limepy, _sample_limepy", "clustertools/io/load.py: load_cluster"]}
{"id": "C93", "title": "Galactic globular clusters by name", "statement": "load_cluster('limepy', gcname=...) gives a sample of the model fitted to the named cluster, found under either of its names whatever the case, on its orbit; by default de Boer et al. (2019) are used, and Harris (2010) for clusters they do not list.", "quantifier": "all names, tables, sources, mean masses and origins", "why_tests_cant": "every name and every pair of tables", "anchors": ["clustertools/io/limepydf.py: _get_limepy, _get_cluster, _get_deBoer_cluster, _get_harris_cluster"]}
{"id": "C94", "title": "NBODY6++ HDF5 snapshots keep the stars, pairs and scales of every group", "statement": "load_cluster(ctype='nbody6++', hdf5=True) reads the first group of a snap.40 file: each pair becomes one star at its centre of mass with the sum of the masses and luminosities and the larger radius, the single stars follow, and the cluster is in N-body units; with a conf.3 file its scales and centre are those of that header, without one the scales are the total mass, the virial radius and G=1. advance_cluster goes through all groups of a file in the same scales, and then opens the next file. Findings: without a header the semi-major axes and periods stay in AU and days, and the groups after the first have scales of one; ns counts the pairs twice; the components have masses of one and are not converted; a group without pairs keeps the number of pairs of the group before.", "quantifier": "all files (any number of groups, stars and pairs), header values, numbers of advances and snapshot numbers", "why_tests_cant": "A test reads one file; that every group of every file is shown in the scales of the header after any number of advances is a statement about all files and histories.", "anchors": ["clustertools/io/nbody6pp.py: _get_nbody6pp (73-161), _get_nbody6pp_hdf5, _get_nbody6pp_hdf5_binaries", "clustertools/io/load.py: load_cluster (189-206), advance_cluster (431-477)", "clustertools/cluster/cluster.py: add_nbody6, add_stars, add_binary_stars, add_bse, add_sse"]}
{"id": "C95", "title": "On-sky coordinates of clusters and points", "statement": "cart_to_sky puts a galactocentric point (kpc, km/s) where it is seen from the Sun with the ro, vo and solarmotion given. Findings: zo is not passed on; sky_coords raises for every cluster because it calls the method to_radec with keyword arguments the method does not have, and so does snapout with radec=True.", "quantifier": "all points, Suns, clusters and catalogues", "why_tests_cant": "A test tries one cluster; that a call fails for every cluster, and that the round trip through cylindrical coordinates gives back every point (also on the axis), are statements about all inputs.", "anchors": ["clustertools/util/coordinates.py: sky_coords, cart_to_sky (227-288)", "clustertools/util/output.py: snapout (25-165)", "clustertools/cluster/cluster.py: to_radec (1664)"]}
{"id": "C96", "title": "Paths on the sky", "statement": "orbital_path with skypath gives the points of the cluster's own orbit, at times in the units of the cluster, each where the cluster's Sun sees it; orbital_path_match with skypath matches every star from where it is seen to the nearest point of the path in right ascension and declination, and leaves the cluster as it was; tail_path with skypath returns, bin by bin, the mean place of the stars of the bin put on the sky. Findings: for a cluster already in radec from_centre is ignored; with the origin at the cluster displacements are matched with places; degrees are converted as if they were kpc; right ascension does not wrap; the points of a tail are seen from the default Sun and not the cluster's; dmax, a length, bounds an angle.", "quantifier": "all clusters, units, origins, potentials (flows), Suns, astrometries, numbers of points and bins, options", "why_tests_cant": "A test integrates one orbit; that each of nt points is seen from the cluster's Sun for every flow, and that every star is in one bin, are statements about all inputs.", "anchors": ["clustertools/analysis/orbits.py: orbital_path (600-738), orbital_path_match (769-1013), initialize_orbit (74-118)", "clustertools/tidaltail/tails.py: tail_path (91-260)", "clustertools/util/coordinates.py: cart_to_sky (255-288)"]}
{"id": "C97", "title": "Results kept by the cluster", "statement": "After any sequence of calls to rlagrange, half_mass_relaxation_time, virial_radius (inverse distances) and to_units, each of cluster.rn, cluster.trh and cluster.rv is the answer to the last call of its kind, with the projected flag given to that call or else the one the cluster was made with, expressed in the units in force when that call was made, and is None if there was no such call; the stars are those of the start in the current units. Changing units does not convert what is kept. virial_radius with an unknown method gives no answer, and the method tapered_mass_function of a cluster never does.", "quantifier": "every history (a list of any length) of such calls with any arguments for which an answer exists, every cluster of any number of stars of positive mass, every starting units and origin", "why_tests_cant": "a test calls one method on a fresh cluster; the kept attributes depend on the whole history of calls and unit changes", "anchors": ["clustertools/cluster/cluster.py: rlagrange, half_mass_relaxation_time, virial_radius, tapered_mass_function, __init__", "clustertools/analysis/functions.py: virial_radius, rlagrange, half_mass_relaxation_time", "clustertools/cluster/operations.py: to_units"]}
{"id": "C98", "title": "The order of analyses does not matter", "statement": "In a session of any length that mixes analyses (Lagrange radii and mass fractions, half-mass and local relaxation times, energies of all or of some stars, both virial radii, tidal radius, tail frame, orbital path, centre of density) with changes of units and origin, every analysis gives exactly the answer, or the error, that it gives when made alone on the cluster taken through the changes that precede it, and at the end the cluster is as if only the changes had been made. So analyses between two changes can be made in any order, repeated or left out, and a session that comes back to the units and origin of the start leaves stars, masses and time as they were.", "quantifier": "every session (list of any length) of those analyses with any arguments, including those that raise, and of changes to any units but sky coordinates and any origin but the sky; every analysed cluster of any number of stars, with any binaries, in any units and origin", "why_tests_cant": "a test makes one analysis on a fresh cluster; that no earlier call leaves a trace concerns all histories", "anchors": ["clustertools/analysis/functions.py: rlagrange, half_mass_relaxation_time, relaxation_time, energies, virial_radius, rtidal, find_centre_of_density", "clustertools/tidaltail/tails.py: to_tail", "clustertools/analysis/orbits.py: orbital_path", "clustertools/cluster/operations.py: to_units, to_origin, save_cluster, return_cluster"]}
{"id": "C99", "title": "Sessions in which analyses fail", "statement": "In an interactive session where the user catches the exceptions, whatever is asked (the analyses of C98, relaxation_time at a radius, changes of units and origin) and whichever calls fail, the cluster always stays usable: it is as if only the changes of units and origin of the session had been made, the requested ones and those a failing analysis had made before it raised (Lagrange radii: to the centre, and out of AMUSE units; relaxation times and critical densities: to the centre and to pc and km/s); no session changes where the stars are seen from the Galaxy, their velocities and masses, ids and scales, and every reply is the answer, or the error, that the request gets alone on the cluster taken through these changes. Not as a user expects: a failing call does not restore units and origin.", "quantifier": "every cluster with recorded orders in pc, kpc or N-body units about any origin but the sky, every finite session of requests with whatever parameters, every interleaving of failures", "why_tests_cant": "the frame after a failure depends on which call failed and on the units and origin then current, so the number of states to test grows with the length of the session; unit tests only call analyses that succeed, each on a fresh cluster", "anchors": ["clustertools/analysis/functions.py:rlagrange", "clustertools/analysis/functions.py:half_mass_relaxation_time", "clustertools/analysis/functions.py:relaxation_time", "clustertools/analysis/functions.py:virial_radius", "clustertools/analysis/functions.py:find_centre_of_density"]}
{"id": "C100", "title": "Profiles and mass functions in any session", "statement": "In a session of any length that mixes profiles (mass, density, the three velocity profiles, anisotropy, circular velocity, slopes of the mass function, dispersions, equipartition masses), mass functions, eta and equipartition mass functions, the twelve analyses of C98, and changes of units and origin, every call gives exactly what it gives alone on the catalogue after the changes made before it and with the masks as the calls before it alone would leave them; at the end only the changes have been made. A mask passed as indx can only lose stars and keeps its length, one that is not passed is untouched; if no mask is passed twice, no call notices another, and between changes the calls can be made in any order. Not as a user expects: calls that share a mask do notice one another.", "quantifier": "every catalogue whose cluster has recorded orders and is stored in pc, kpc, N-body or AMUSE units about any origin but the sky, every finite session, every selection, every bins, every contents and sharing of masks, every fitting routine", "why_tests_cant": "results depend on frame, on selections and on the aliasing of mask arrays through all calls made so far; sequences and aliasing patterns cannot be enumerated, and unit tests call each routine on a fresh cluster with a fresh mask", "anchors": ["clustertools/analysis/profiles.py:rho_prof", "clustertools/analysis/profiles.py:m_prof", "clustertools/analysis/profiles.py:sigv_prof", "clustertools/analysis/profiles.py:vcirc_prof", "clustertools/analysis/functions.py:mass_function", "clustertools/analysis/functions.py:meq_function", "clustertools/cluster/cluster.py:StarCluster._get_subset"]}
{"id": "C101", "title": "What a failing profile leaves behind", "statement": "When a mass, density, velocity or anisotropy profile raises (no star selected, a mask of the wrong length, a scale that was never measured, a velocity that does not exist), the catalogue left behind holds the same stars: positions, velocities and masses seen from the Galaxy, ids and stored scales are as before, it is in units and about an origin with which every later call can work, and nothing else of the catalogue changes. A mask passed as indx keeps its length and can only lose stars. Not as a user expects: a profile of an empty selection fails and leaves the mask it was given all False, and the mass and density profiles leave a catalogue seen from the Galaxy centred on the cluster.", "quantifier": "every settled catalogue with its scales (any number of stars, any units, galactic, cluster or centre origin), every one of the seven profile routines, number and type of bins, selection and mask with which the call raises", "why_tests_cant": "exceptions leave the routine at a different statement for every input; tests look at calls that succeed and never at the objects after a failure", "anchors": ["clustertools/analysis/profiles.py:34-850 (rho_prof, m_prof, sigv_prof)", "clustertools/analysis/profiles.py:852-1493 (beta_prof, v_prof, v2_prof)", "clustertools/cluster/cluster.py:3935 (subset writes the mask)", "clustertools/util/recipes.py:29-148 (bin makers raise on no value)"]}
{"id": "C102", "title": "Working through a simulation snapshot by snapshot", "statement": "When snapshots are analysed one after the other (load, any session of analyses, profiles and changes of units and origin, advance_cluster, the next session, ...), every session finds exactly what it finds when the earlier snapshots are only passed over, and the campaign fails only where one session, or reading its snapshot, fails by itself. When advance_cluster is given the keywords of load_cluster, session i finds what it finds on snapshot n+i opened by load_cluster directly, in the units and about the origin asked for at the first load, whatever was done to the cluster before. The next group of an NBODY6++ HDF5 file, which is read with the scales and the centre of the group before, is the same after any changes of units and origin and, when the stored radial order is up to date, after any analyses.", "quantifier": "every series of snapshot files (any number, any number of stars), both readers of NEMO streams, HDF5 files with any number of groups; every number of sessions of every length, also sessions that fail and are caught", "why_tests_cant": "the state advance_cluster takes over from the cluster it is given is implicit (a dozen attributes), and a test would have to try every session before every snapshot", "anchors": ["clustertools/io/load.py:354-647 (advance_cluster)", "clustertools/io/load.py:444-459 (scales and centre of the previous HDF5 group)", "clustertools/io/load.py:712-777 (_get_advanced_kwargs)", "clustertools/cluster/cluster.py:150-157 (units_init, origin_init)"]}
