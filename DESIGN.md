# Design: a Rocq model of clustertools

## Number model and representation

* Doubles are idealised as the real numbers `R` of the Coq standard library. Rounding, overflow, NaN and
  infinities are not modelled. Where the code would divide by zero or raise, the model either returns an error
  value or the theorem carries the guard that excludes the case.
* numpy arrays are `list R` (`list nat`, `list bool` for integer and mask arrays); in-place scalar array updates
  (`a *= k`) become a functional update of the record that holds the cluster. The record keeps one list per
  attribute (struct of arrays), as the code does, so that a missed or swapped component shows.
* Unit and origin strings are inductive types plus `None` where the code tests it.
* Exceptions are values (`Raise` / `None`); loops are structural recursion or recursion on explicit fuel with an
  error value on exhaustion.
* External code (galpy `Orbit` and `conversion`, scipy `cKDTree`, AMUSE, random generators, the file system) is a
  parameter of the model's functions. What a theorem assumes about a parameter is a hypothesis of that theorem.

## Layout (rocq/theories)

* `Base*.v` numpy-like helpers and lemmas; `Model*.v` the model, each definition citing file and lines;
  `Spec*.v` short specifications that do not use the model's helpers; `Proofs*.v` lemmas;
  `Prop*.v` only `Theorem ... exact lemma` with `Print Assumptions` and the non-vacuity examples.

## Plan per property

| id | what is modelled | how proved |
|----|------------------|-----------|
| C01-C03 | all `to_*` unit functions on the full cluster record | each conversion shown to act as scaling by a per-unit factor; induction over request lists |
| C04-C05 | `_convert_*` branch by branch | case analysis over unit pairs with `field`; false cases as `_refuted` |
| C06 | `_get_grav` + pair energies | algebra on scale factors |
| C07-C10 | origin functions, save/return | translations, induction over op lists |
| C11 | `to_radec`, `from_radec`, `to_sky` with orbit cache and an astrometric oracle | algebra; stale cache refuted |
| C12 | binary units | case analysis, induction |
| C13-C14 | `sortstars`, `analyze` with insertion argsort | permutation/sortedness, first index reaching cumulative mass |
| C15-C20 | `add_stars`, `add_binary_stars`, `add_sse` | list lemmas, induction over call histories |
| C21-C24 | `_get_subset` with an explicit mutable mask cell, `sub_cluster`, `overlap_cluster` | pointwise characterisation |
| C25-C28 | recipes binning | counting lemmas, sortedness |
| C29-C30 | `minimum_distance`, power-law inverse CDF | minimum over lists; monotonicity of `Rpower` |
| C31 | coordinate functions | trigonometry on `R` |
| C32-C38 | centre, potential, energies, Lagrange, virial radius | sums over lists |
| C35 | parallel loop as interleaved read/modify/write steps | witness schedule (refuted) and race-free case |
| C39-C42 | mass function, profiles, tidal radius | counting, fuel recursion |
| C43 | `add_rotation` | algebra |
| C44-C48 | readers as functions from tables/words/lines; advance bookkeeping | parser/encoder round trip, induction |
| C49-C50 | rotation matrix from galpy as explicit formula, path matching | linear algebra, argmin |
| C51-C52 | closed formulas | real analysis |
| C53-C66 | added as the model grew (frames, subsets, profiles, slopes) | as the property they refine |
| C67 | relaxation times | unit-independent view of the working frame |
| C68 | `add_orbit` unit branches | case analysis over pairs of systems |
| C69 | `fortout`, `sseout`, `gyrout` | composition of the frame views with the row builder |
| C70 | binaries of fort.82 | algebra |
| C71-C75 | orbital paths, tail paths, interpolated orbits | flow laws, argmin, bins |
| C76-C79 | limiting, core and virial radii, equipartition mass, kinematic concentration | unit-independent view of the working frame; chords of profiles; nearest neighbours |
| C81 | `centre_method`: projections on the sky | case analysis over requests, trigonometry, derivatives |
| C82 | `energies(ids=...)` | composition of the energy theorems with the selection |
| C83 | tapered mass functions | the histogram theorem of C39, laws of exponentials; the best fit is a parameter with its specification |
| C84 | `meq_prof` | composition of the binning, selection and equipartition theorems |
| C85-C86 | NBODY6++ files: conf.3, bev.82, sev.83, series | binary layout as for C46; induction over steps; permutations of addresses |
| C80 | `sub_cluster` with its reset options | the plain call followed by a change of centre, or by a change of scales seen through the unit-independent view |
| C87 | galpy orbits in `load_cluster` and `advance_cluster` | an orbit is any function from time to a point; unit sizes as for C01; the bracket to_cluster, find_centre, return_cluster as for C44 |
| C88 | astropy tables | a table is a list of named columns; search by names specified without the code, ignoring case by a relation on characters; the dict of the caller is part of the result |
| C89, C90 | galpy Orbits and AMUSE particles | objects are lists of phase-space points, in natural units for galpy, in pc, km/s, Msun for AMUSE; physical positions are compared through the sizes of the unit systems |
| C91 | King models | the two tables are in the model as integers; interpolation by a geometric relation (the point lies on a segment of the table), symmetric in its two coordinates |
| C92 | limepy clusters | the sampler is an arbitrary function from a model and a number to stars; the keywords are specified by a relation, the result star by star |
| C93 | clusters by name | the tables are arbitrary lists of rows, galpy's orbits by name an arbitrary partial function; the row found is the first that matches |
| C94 | HDF5 branch of NBODY6++: groups as lists of rows, header from conf.3 bytes, load and advance | the columns appended by add_stars, add_bse, add_sse are computed for every list; conversion to N-body units undone entry by entry; induction on the number of advances |
| C95, C96 | cart_to_sky, sky_coords, snapout radec, and the option skypath of the path functions, over a parameter for galpy's astrometry | cylindrical round trip; the orbit theorems of C72/C73 composed with the astrometry; matching generalised to any places of the stars; the way back from radec by C11's round trip |
| C97 | cluster with attributes projected, rn, trh, rv; a history is a list of calls | induction on the history (from the end): every call starts from a cluster that is the first one in other units; per-call theorems of C37, C67, C36 |
| C98 | sessions: lists of analyses and changes of units and origin over the models of twelve functions | a homomorphism: every operation commutes with forgetting the binaries; each analysis restores all else (bracket of C10); induction on the session |
| C99 | the cluster as a failing call leaves it; interactive sessions of requests and replies | the itinerary of changes is read off requests and replies; induction with the invariant of C98 (restored and sorted), detours shown equal to runs of changes |
| C100 | sessions of eleven routines of profiles and mass functions mixed with C98's analyses; masks of the caller as named arrays | each routine commutes with forgetting the binaries and restores the rest (bracket); induction on the session; the mask output of each routine is that of one subset call |
| C101 | the catalogue and the mask of the caller at the exception of a profile | the frame is seen as the same stars (sees); subset only narrows; for an empty selection the mask left is all False, and both bin makers raise on no value |
| C102 | load, session, advance, session, ... over the modelled loaders | the loader does not read the catalogue, so induction on the sessions; advancing equals opening the later snapshot; for HDF5 the header handed on is a function of the view from the Galaxy (view6 is injective) |


## Reading guide

A theorem's statement uses the model's entry points (`to_pckms`, `m_prof`, ...) and the predicates of the `Spec*.v` file
with the same suffix. A claim that is false of the code is kept in full in `properties.jsonl`; the part that holds is a
theorem with suffix `_partial` (or the unsuffixed theorems of the claim), and the failure is a theorem with suffix
`_refuted`, quantified over every input it concerns wherever possible. `MANIFEST.json` names them per property.

## What is modelled

| model file | code |
|------------|------|
| `ModelCluster`, `ModelOps` | the cluster record, `analyze`, `sortstars`, all `to_*` unit and origin changes, binary units, save/return (`cluster/cluster.py`, `cluster/operations.py`) |
| `ModelConv` | `util/units.py` `_convert_*`, `_get_grav` |
| `ModelEnergy` | `energies`, pairwise potentials (full, half, specified stars, parallel schedules), `virialize`, `virial_radius` (`analysis/functions.py`) |
| `ModelRecipes` | binning, profiles of arrays, smoothing, nearest neighbours, power law samples (`util/recipes.py`) |
| `ModelStars` | `add_stars`, `add_sse`, `add_bse`, binaries |
| `ModelSubset` | `_get_subset`, `sub_cluster`, `overlap_cluster` |
| `ModelCoords` | `util/coordinates.py` and the transcribed formulas of `galpy.util.coords` |
| `ModelCentre` | `find_centre*`, density and shrinking sphere, `add_centre` bookkeeping |
| `ModelLagrange`, `ModelProfiles`, `ModelMassFunction` | Lagrange radii, mass, density, velocity, anisotropy, circular velocity profiles; mass functions and equipartition slopes |
| `ModelLoad` | `load_cluster`, `advance_cluster`, `_get_filename`, `_get_advanced_kwargs` for snapshot files, `_get_snapshot`, `_get_cluster_orbit`, `add_orbit` (`io/load.py`, `io/snapshot.py`, `io/orbit.py`); the disk is a function from names to lists of lines, `np.loadtxt` and `float` are modelled by a `reader` |
| `ModelOutput` | `snapout`, `sseout`, `fortout`, `gyrout` (`util/output.py`) |
| `ModelGyr` | `_get_gyrfalcon`, `_get_new_gyrfalcon` and their branches of `load_cluster` and `advance_cluster` (`io/gyrfalcon.py`, `io/load.py`) |
| `ModelNbody6` | `_get_nbody6`, `_get_nbody6_out3`, `_get_nbody6_out33`, `_get_nbody6se` and their branches of `load_cluster` and `advance_cluster` (`io/nbody6.py`, `io/load.py`); a binary file is a list of bytes, `struct.unpack` of four bytes a parameter |
| `ModelTail` | `to_tail`, `orbital_path_match` without `skypath` (`tidaltail/tails.py`, `analysis/orbits.py`); galpy's `_rotate_to_arbitrary_vector` is transcribed from its published version, which is not in the sandbox |
| `ModelOrbit` | `initialize_orbit(s)`, `interpolate_orbit(s)`, `orbital_path`, `tail_path`, `tail_path_match` (`analysis/orbits.py`, `tidaltail/tails.py`); the motion in the potential is a parameter `ev`, taken as exact, constrained in theorems only by the laws of a flow |
| `ModelSky` | orbits kept in the cluster: the methods `initialize_orbit(s)`, `orbital_path(initialize=True)`, `add_orbit(initialize=True)` (`cluster.py`); `to_radec`, `from_radec`, `to_sky` themselves are in `ModelOps`, the astrometric transformation of galpy being a parameter |
| `ModelDynamics` | `rtidal`, `relaxation_time`, `half_mass_relaxation_time`, `reset_nbody_scale`, `add_rotation` |
| `ModelRadii` | `rlimiting`, `rcore` (both methods), `virial_radius_critical_density`, `core_relaxation_time`, `meq_function`, `ckin` (`analysis/functions.py`); the density of the potential, galpy's critical density and scipy's `curve_fit` are parameters |
| `ModelReset` | `sub_cluster` with `reset_centre`, `reset_nbody`, `reset_nbody_mass`, `reset_nbody_radii`, `reset_rvirial`, `reset_projected` (`cluster/cluster.py`) |
| `ModelProject` | `to_cluster`, `to_centre`, `to_galaxy`, `to_radec` with `centre_method` (`cluster/operations.py`) |
| `ModelIds` | `energies` with `ids` (`analysis/functions.py`, `cluster/cluster.py`) |
| `ModelTapered` | `tapered_mass_function`, `tapered_dx_function`, the method `mass_function` (`analysis/functions.py`, `util/recipes.py`, `cluster/cluster.py`); scipy's `curve_fit` is a parameter |
| `ModelMeqProf` | `meq_prof` (`analysis/profiles.py`) without bins given by the caller |
| `ModelNbody6pp` | `io/nbody6pp.py` without hdf5, and its branches in `io/load.py`; a decoder of bytes is a parameter, a real word has no NaN |
| `ModelGorbit` | `io/load.py` 291-344, 618-645 (galpy orbits), composed with the snapshot reader |
| `ModelTable` | `io/astropy_table.py` and its branch in `io/load.py`; units of columns and non-integer identifiers not modelled; `lower` on ASCII only |
| `ModelParticles` | `io/galpydf.py`, `io/amuse.py`, `util/units.py:_convert_amuse`; galpy's and AMUSE's own unit conversions are trusted to be multiplications |
| `ModelKing` | `io/limepydf.py:236-702` (c_to_w0, w0_to_c) |
| `ModelLimepy` | `io/limepydf.py:32-234`, `705-925` (limepy's sampling itself is a parameter) |
| `ModelHdf5` | io/nbody6pp.py 73-161, 236-238, 457-493; io/load.py 189-206, 431-477; cluster.py 1063-1104 |
| `ModelSkyPath` | util/coordinates.py 227-288, util/output.py option radec, analysis/orbits.py 600-1013 and tidaltail/tails.py 91-260 with skypath; zo and solarmotion of a cluster and galpy's astrometry are parameters |
| `ModelKept` | cluster.py 364-382, 2407-2437, 2606-2681, 2777-2873; functions.py 1047-1099 |
| `ModelHistory` | composition of the modelled functions; no new code |
| `ModelErrors` | functions.py 978-1015, 456-493 (526-529), 531-565, 1182-1253, 188-249; analysis/orbits.py 600-686: the state when an exception leaves them |
| `ModelSurvey` | composition of the modelled functions; masks of the caller by name |
| `ModelAbandon` | profiles.py 34-1493: state left when a statement raises |
| `ModelCampaign` | load.py 354-647, 712-777 composed with sessions |

Not modelled: plotting, AMUSE conversion of particle sets, galpy's numerical orbit integration and distribution functions, the sampling inside limepy,
how scipy's `curve_fit` finds its answer, random sampling set-ups, and whatever a section below excludes.

## Simplifications that matter

* Real arithmetic: equalities hold up to rounding in the program. With floating point the end edges of logarithmic bins
  may exclude the extreme elements, and equal keys may be ordered differently.
* `np.argsort` is modelled by a stable insertion sort; theorems about orders only use that the result sorts, but ties are
  resolved by index where a value depends on the order.
* `np.polyfit(x, y, 1, cov=True)` is modelled by the closed form of the least squares line; its exceptions and its
  non-finite results are both a missing fit.
* `cKDTree.query` is modelled by its specification (the nearest other point).
* A call that raises in the middle loses the state in the model (`Raise`); what the object looks like after an exception
  is described only where a theorem says so; `ModelErrors` (C99) describes it for the analyses of C98.
* `vcirc_prof` with origin galaxy and `normalize=False` uses the radial order recorded relative to the orbit, not to the
  centre; the theorem C41 excludes that case.
* The loops of `alpha_prof` and `eta_prof` call the inner routine on the same framed cluster each time instead of
  threading the object the previous call gave back; by C39/C64 that object is restored.

## Trusted base

* Coq 8.16.1's kernel, its standard library and `ssreflect`; no functors, module types, plugins, `Admitted` or own axioms.
* `Print Assumptions` is run after every theorem in `Prop*.v`. Theorems about reals list at most the standard library's
  `ClassicalDedekindReals.sig_not_dec`, `ClassicalDedekindReals.sig_forall_dec`,
  `FunctionalExtensionality.functional_extensionality_dep` and `Classical_Prop.classic`; theorems about lists of abstract
  data are closed.
* That the definitions in `Model*.v` are the code: each cites file and lines. The edits in `seeded/LOG.jsonl` show which
  theorems notice a change of which definition.
