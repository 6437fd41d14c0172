{"id": "C01", "title": "Exchange matrix decomposition is exact and unique", "statement": "For every MatrixParameter, matrix = iso_matrix + aniso + dmi_matrix, where aniso is symmetric and traceless and dmi_matrix is the antisymmetric matrix built from the dmi vector; and no other (number, symmetric traceless matrix, vector) triple composes the same matrix.", "quantifier": "all real 3x3 matrices", "why_tests_cant": "The claim ranges over a continuum of matrices; tests sample a handful.", "anchors": ["src/magnopy/spinham/parameter.py:MatrixParameter.iso", "src/magnopy/spinham/parameter.py:MatrixParameter.aniso", "src/magnopy/spinham/parameter.py:MatrixParameter.dmi", "src/magnopy/spinham/parameter.py:MatrixParameter.dmi_matrix"]}
{"id": "C02", "title": "Setting iso or dmi changes only that part", "statement": "After p.iso = v the parameter reads back iso = v with aniso and dmi unchanged; after p.dmi = d it reads back dmi = d with iso and aniso unchanged, whatever the parameter was before.", "quantifier": "all matrices and all assigned values", "why_tests_cant": "Interference between parts is an algebraic identity over all matrices.", "anchors": ["src/magnopy/spinham/parameter.py:MatrixParameter.iso", "src/magnopy/spinham/parameter.py:MatrixParameter.dmi"]}
{"id": "C03", "title": "Setting aniso changes only the symmetric anisotropic part", "statement": "After p.aniso = A the parameter reads back aniso = A and keeps iso and dmi. (Full claim: for every 3x3 A. It is false for A with a trace or an antisymmetric part; it holds exactly for symmetric traceless A.)", "quantifier": "all matrices and all assigned 3x3 arrays", "why_tests_cant": "Tests use symmetric traceless arrays or few literals; the boundary of validity is a statement about all arrays.", "anchors": ["src/magnopy/spinham/parameter.py:MatrixParameter.aniso"]}
{"id": "C04", "title": "Constructor keyword precedence", "statement": "MatrixParameter(matrix=m, iso=i, aniso=a, dmi=d) has exactly the given parts, and for every omitted part the part of m (or zero when m is omitted too), for symmetric traceless a, independently of which subset of keywords is given.", "quantifier": "all 16 keyword subsets and all values", "why_tests_cant": "Every combination of keyword presence and values matters.", "anchors": ["src/magnopy/spinham/parameter.py:MatrixParameter.__init__"]}
{"id": "C05", "title": "Transposition and arithmetic act part by part", "statement": "p.T.T equals p; p.T keeps iso and aniso and negates dmi; addition, subtraction, negation, multiplication and division by a number act linearly on iso, aniso and dmi; none of them changes its operands.", "quantifier": "all matrices and scalars", "why_tests_cant": "Algebraic laws over all values.", "anchors": ["src/magnopy/spinham/parameter.py:MatrixParameter.T", "src/magnopy/spinham/parameter.py:MatrixParameter.__add__", "src/magnopy/spinham/parameter.py:MatrixParameter.__mul__", "src/magnopy/spinham/parameter.py:MatrixParameter.__truediv__"]}
{"id": "C06", "title": "First interpretation never rescales", "statement": "On a Hamiltonian whose notation is not yet set, setting double_counting, spin_normalized, exchange_factor or on_site_factor for the first time never changes the number stored for an on-site parameter, and only double_counting may touch exchange (by adding or dropping mirrored bonds), never by scaling.", "quantifier": "all Hamiltonians with an unset notation property, all new values", "why_tests_cant": "Must hold for every content of the Hamiltonian and order of setting.", "anchors": ["src/magnopy/spinham/hamiltonian.py:SpinHamiltonian.notation", "src/magnopy/spinham/hamiltonian.py:SpinHamiltonian.spin_normalized", "src/magnopy/spinham/hamiltonian.py:SpinHamiltonian.exchange_factor"]}
{"id": "C07", "title": "Changing spin normalization or factors preserves the physical energy", "statement": "Changing spin_normalized, exchange_factor or on_site_factor from one defined value to another leaves the classical energy of every spin configuration unchanged.", "quantifier": "all Hamiltonians (distinct parameter objects, nonzero spins and factors), all spin configurations, all old and new values", "why_tests_cant": "Energy equality for every configuration and every Hamiltonian is a universally quantified algebraic fact.", "anchors": ["src/magnopy/spinham/hamiltonian.py:SpinHamiltonian.spin_normalized", "src/magnopy/spinham/hamiltonian.py:SpinHamiltonian.exchange_factor", "src/magnopy/spinham/hamiltonian.py:SpinHamiltonian.on_site_factor"]}
{"id": "C08", "title": "Switching double counting preserves the physical energy", "statement": "Switching double_counting between True and False leaves the classical energy of every spin configuration unchanged. (False in general: mirrored pairs with unequal matrices, a bond of an atom with itself in the same cell, or a backward-only bond break it; it holds for reciprocal Hamiltonians.)", "quantifier": "all Hamiltonians, all spin configurations, both directions", "why_tests_cant": "Depends on the whole bond dictionary, including unusual bonds tests never build.", "anchors": ["src/magnopy/spinham/hamiltonian.py:SpinHamiltonian.double_counting", "src/magnopy/spinham/hamiltonian.py:SpinHamiltonian._ensure_double_counting", "src/magnopy/spinham/hamiltonian.py:SpinHamiltonian._ensure_no_double_counting"]}
{"id": "C09", "title": "Notation round trip and path independence", "statement": "Converting a Hamiltonian to another notation and back restores every parameter exactly, and converting through any intermediate notation gives the same parameters as converting directly.", "quantifier": "all reciprocal Hamiltonians, all triples of notations", "why_tests_cant": "All chains of conversions over all Hamiltonians.", "anchors": ["src/magnopy/spinham/hamiltonian.py:SpinHamiltonian.notation"]}
{"id": "C10", "title": "A rejected notation change leaves the Hamiltonian untouched", "statement": "If assigning a notation property raises, no parameter and no notation property has changed. (Holds for unknown names, wrong lengths and a zero factor; fails when a spin is undefined half way or when double_counting = False meets a backward-only bond.)", "quantifier": "all Hamiltonians and all rejected assignments", "why_tests_cant": "Needs the state at every possible point of failure.", "anchors": ["src/magnopy/spinham/hamiltonian.py:SpinHamiltonian.notation", "src/magnopy/spinham/hamiltonian.py:SpinHamiltonian.double_counting", "src/magnopy/spinham/hamiltonian.py:SpinHamiltonian.spin_normalized"]}
{"id": "C11", "title": "Double counting keeps mirrored bonds together", "statement": "While double_counting is True, after any sequence of additions, removals, filtering, atom removals and notation changes, a bond is in the Hamiltonian exactly when its mirrored bond is.", "quantifier": "all finite histories of API calls, including calls that raise", "why_tests_cant": "Invariant over unbounded histories.", "anchors": ["src/magnopy/spinham/hamiltonian.py:SpinHamiltonian.add_exchange", "src/magnopy/spinham/hamiltonian.py:SpinHamiltonian.remove_exchange", "src/magnopy/spinham/hamiltonian.py:SpinHamiltonian.double_counting"]}
{"id": "C12", "title": "Mirrored bonds carry transposed matrices", "statement": "While double_counting is True the mirrored bond carries the transposed matrix of the bond. (True as long as no bond of an existing pair is overwritten; overwriting one leaves the stale transpose behind.)", "quantifier": "all finite histories of API calls", "why_tests_cant": "Invariant over unbounded histories; the failing histories are those that overwrite.", "anchors": ["src/magnopy/spinham/hamiltonian.py:SpinHamiltonian.add_exchange"]}
{"id": "C13", "title": "Without double counting each pair is stored once, in canonical direction", "statement": "After double_counting = False succeeds, for each stored bond the mirrored bond is absent (unless it is the bond itself) and the stored direction is the canonical one; the set of bonds up to mirroring is unchanged.", "quantifier": "all Hamiltonians on which the assignment succeeds", "why_tests_cant": "Quantifies over all bond sets.", "anchors": ["src/magnopy/spinham/hamiltonian.py:SpinHamiltonian._ensure_no_double_counting"]}
{"id": "C14", "title": "Bond dictionary semantics", "statement": "After adding a bond, looking it up returns the added parameter; all bonds other than it and (under double counting) its mirror are unchanged; after removing it, it is absent; membership agrees with lookup; adding or removing exchange never touches on-site terms and vice versa.", "quantifier": "all Hamiltonians, all keys, all parameters, all histories", "why_tests_cant": "Refinement to an abstract map for every history.", "anchors": ["src/magnopy/spinham/hamiltonian.py:SpinHamiltonian.__getitem__", "src/magnopy/spinham/hamiltonian.py:SpinHamiltonian.__contains__", "src/magnopy/spinham/hamiltonian.py:SpinHamiltonian.__delitem__"]}
{"id": "C15", "title": "Removing an atom removes exactly its parameters", "statement": "remove_atom(a) succeeds, afterwards no bond or on-site parameter involves a, every other parameter is unchanged and a is no longer in the crystal. (Fails under double counting: KeyError after a partial removal.)", "quantifier": "all Hamiltonians and atoms", "why_tests_cant": "Failure depends on bond structure and notation; the frame condition is over all other parameters.", "anchors": ["src/magnopy/spinham/hamiltonian.py:SpinHamiltonian.remove_atom"]}
{"id": "C16", "title": "On-site parameters are removable by object and by name", "statement": "remove_on_site(a) removes exactly the on-site parameter of a, whether a is given as an Atom or as its name. (By name it never works.)", "quantifier": "all Hamiltonians and atoms", "why_tests_cant": "Universal over contents; the by-name call is a claim about every call.", "anchors": ["src/magnopy/spinham/hamiltonian.py:SpinHamiltonian.remove_on_site"]}
{"id": "C17", "title": "Filtering keeps exactly the parameters that satisfy the conditions", "statement": "filter(...) keeps a bond iff it meets all given conditions (under double counting: iff both it and its mirror do), keeps on-site terms iff they pass, leaves kept parameters unchanged, is idempotent, and its result does not depend on the iteration order of the internal set.", "quantifier": "all Hamiltonians, distances, custom predicates, and all set iteration orders", "why_tests_cant": "Set iteration order is nondeterministic; predicates are arbitrary functions.", "anchors": ["src/magnopy/spinham/hamiltonian.py:SpinHamiltonian.filter"]}
{"id": "C18", "title": "filtered() does not modify and shares nothing", "statement": "filtered(...) leaves the original Hamiltonian unchanged, and later changes to the result never show up in the original nor the other way round.", "quantifier": "all Hamiltonians and all later histories of changes", "why_tests_cant": "Aliasing is a property of all later histories.", "anchors": ["src/magnopy/spinham/hamiltonian.py:SpinHamiltonian.filtered", "src/magnopy/spinham/hamiltonian.py:SpinHamiltonian.copy"]}
{"id": "C19", "title": "magnetic_atoms is exact and ordered", "statement": "magnetic_atoms lists every atom that has at least one parameter, each once, and no other, ordered by index; I is its length.", "quantifier": "all Hamiltonians", "why_tests_cant": "Universal over contents and histories.", "anchors": ["src/magnopy/spinham/hamiltonian.py:SpinHamiltonian.magnetic_atoms", "src/magnopy/spinham/hamiltonian.py:SpinHamiltonian.I"]}
{"id": "C20", "title": "exchange_like represents the whole Hamiltonian", "statement": "Summing exchange_factor * S_i J S_j over exchange_like gives the full classical energy (exchange plus on-site); each parameter is listed exactly once, on-site first. (The energy claim is false unless exchange_factor^2 = on_site_factor^2, because the scale factor is inverted.)", "quantifier": "all Hamiltonians and spin configurations", "why_tests_cant": "Energy identity over all Hamiltonians; the defect is invisible when both factors are 1.", "anchors": ["src/magnopy/spinham/hamiltonian.py:SpinHamiltonian.exchange_like", "src/magnopy/spinham/hamiltonian.py:_SpinHamiltonianExchangeLikeIterator"]}
{"id": "C21", "title": "Building Energy leaves the Hamiltonian as it was", "statement": "Energy(spinham) leaves the notation and the classical energy of spinham unchanged, also when it raises. (Raising can leave double_counting switched on.)", "quantifier": "all Hamiltonians", "why_tests_cant": "All contents and all points of failure.", "anchors": ["src/magnopy/spinham/energy.py:Energy.__init__"]}
{"id": "C22", "title": "Energy is independent of the Hamiltonian it was built from", "statement": "Later changes of the Hamiltonian never change the value returned by Energy.ferro/antiferro/spiral. (False: parameter objects are shared.)", "quantifier": "all Hamiltonians and later histories", "why_tests_cant": "Aliasing over all later histories.", "anchors": ["src/magnopy/spinham/energy.py:Energy.__init__", "src/magnopy/spinham/energy.py:Energy.ferro"]}
{"id": "C23", "title": "Energy.ferro is the classical energy of the Hamiltonian", "statement": "Energy(spinham).ferro(s) equals the classical energy of spinham in the configuration with unit directions s (zero field). (Holds for double counting, unnormalized spins and equal squared factors; without double counting the exchange part comes out doubled; for normalized spins it carries extra spin factors.)", "quantifier": "all Hamiltonians, all notations, all spin directions", "why_tests_cant": "Equality of two energy expressions for all Hamiltonians.", "anchors": ["src/magnopy/spinham/energy.py:Energy.ferro", "src/magnopy/spinham/energy.py:Energy.__init__"]}
{"id": "C24", "title": "Energies depend only on directions", "statement": "ferro, antiferro and spiral energies do not change when any spin vector or the cone axis is multiplied by a positive number.", "quantifier": "all configurations, all positive factors", "why_tests_cant": "Continuum of inputs.", "anchors": ["src/magnopy/spinham/energy.py:Energy.ferro", "src/magnopy/spinham/energy.py:Energy.antiferro", "src/magnopy/spinham/energy.py:Energy.spiral"]}
{"id": "C25", "title": "Cone-state energies are the lattice averages of the classical energy", "statement": "For zero field, the spiral energy is the average over all cone phases of the energy of spins rotated about the cone axis by q.r, and for 2q a reciprocal vector the antiferro energy is the average over the two cell phases 0 and pi.", "quantifier": "all bonds, spins, cone axes and spiral vectors", "why_tests_cant": "An identity of trigonometric matrix expressions for all parameters.", "anchors": ["src/magnopy/spinham/energy.py:Energy.spiral", "src/magnopy/spinham/energy.py:Energy.antiferro"]}
{"id": "C26", "title": "Zeeman energy of cone states", "statement": "In a field, the Zeeman part of the antiferro and spiral energies is the lattice average of mu_B g H.s, i.e. only the component along the cone axis counts. (False: the code adds the full spin once more.)", "quantifier": "all spins, axes and fields", "why_tests_cant": "Continuum of inputs.", "anchors": ["src/magnopy/spinham/energy.py:Energy.antiferro", "src/magnopy/spinham/energy.py:Energy.spiral"]}
{"id": "C27", "title": "Optimizer steps keep unit vectors", "statement": "Every update step of the minimizer maps unit spin vectors (and a unit cone axis) to unit vectors, for any search direction and step size; in the antiferro case the spiral vector never changes.", "quantifier": "all configurations, search directions and step sizes; lifted to all iterations", "why_tests_cant": "Invariant of an unbounded iteration.", "anchors": ["src/magnopy/spinham/energy.py:_update_x_ferro", "src/magnopy/spinham/energy.py:_update_x_antiferro", "src/magnopy/spinham/energy.py:_update_x_spiral"]}
{"id": "C28", "title": "The search direction of the first step is a descent direction", "statement": "Moving a small step along the first search direction decreases the energy to first order: the rotation of the spins gives derivative -(sum of squared torques), and the change of q gives a non-positive contribution. (The q part is an ascent direction.)", "quantifier": "all configurations and all energies", "why_tests_cant": "Derivative statement for all points.", "anchors": ["src/magnopy/spinham/energy.py:Energy._ferro_grad", "src/magnopy/spinham/energy.py:Energy._spiral_grad", "src/magnopy/spinham/energy.py:_update_x_spiral"]}
{"id": "C29", "title": "The q gradient is the derivative of the spiral energy", "statement": "The last three components of the spiral gradient are the exact partial derivatives of the spiral energy with respect to the spiral vector.", "quantifier": "all bonds, spins, unit cone axes and spiral vectors", "why_tests_cant": "Derivative identity over a continuum.", "anchors": ["src/magnopy/spinham/energy.py:Energy._spiral_grad"]}
{"id": "C30", "title": "Antiferro gradient layout", "statement": "In the antiferro case the gradient vector holds the torque components of every spin followed by those of the cone axis, and the update rotates the cone axis accordingly. (False: the last spin's entries are overwritten and the cone axis never moves.)", "quantifier": "all numbers of spins and configurations", "why_tests_cant": "Off-by-three indexing for every number of spins.", "anchors": ["src/magnopy/spinham/energy.py:Energy._antiferro_grad", "src/magnopy/spinham/energy.py:_update_x_antiferro"]}
{"id": "C31", "title": "optimize stops only when converged or out of iterations", "statement": "When optimize returns, either the last energy change and the torque targets are within tolerance or exactly max_iterations steps were made; it never makes more than max_iterations steps; the configuration returned has unit spins. The torque targets are those of the configuration before the last step. (With non-positive tolerances it can return the initial guess untouched.)", "quantifier": "all energies, initial guesses, tolerances and iteration limits", "why_tests_cant": "Loop of unbounded length over arbitrary energy landscapes.", "anchors": ["src/magnopy/spinham/energy.py:Energy.optimize"]}
{"id": "C32", "title": "Line search result", "statement": "The line search either returns a step 0.99^i at which both tested inequalities hold, with i the first such index, or raises after 10002 reductions; it always terminates.", "quantifier": "all energies, gradients, search directions", "why_tests_cant": "Termination and post-condition of a loop over arbitrary functions.", "anchors": ["src/magnopy/spinham/energy.py:Energy._lambda"]}
{"id": "C33", "title": "Accepted steps never increase the energy", "statement": "Each accepted optimization step gives an energy not larger than before. (False: the sufficient decrease test has the wrong sign for the direction actually taken, an accepted step may increase the energy by c1*step*|g|^2.)", "quantifier": "all energies and steps", "why_tests_cant": "Arbitrary landscapes.", "anchors": ["src/magnopy/spinham/energy.py:Energy._lambda", "src/magnopy/spinham/energy.py:Energy.optimize"]}
{"id": "C34", "title": "Optimization history is complete", "statement": "With save_history every configuration visited is written exactly once and in order. (True when the loop converges; entries since the last flush are lost when max_iterations is reached.)", "quantifier": "all runs, history steps and iteration limits", "why_tests_cant": "Depends on the residue of the run length modulo the flush period.", "anchors": ["src/magnopy/spinham/energy.py:Energy.optimize"]}
{"id": "C35", "title": "The magnon matrix is Hermitian", "statement": "MagnonDispersion(model).h(k) is Hermitian for every k. (Only if the on-site matrices are symmetric, although an antisymmetric part does not change the energy.)", "quantifier": "all reciprocal Hamiltonians with symmetric on-site matrices, spin directions, k", "why_tests_cant": "Continuum of k and arbitrary bond sets.", "anchors": ["src/magnopy/magnons/dispersion.py:MagnonDispersion.h", "src/magnopy/magnons/dispersion.py:MagnonDispersion.A", "src/magnopy/magnons/dispersion.py:MagnonDispersion.B", "src/magnopy/magnons/dispersion.py:MagnonDispersion.C"]}
{"id": "C36", "title": "Particle-hole symmetry of the magnon matrix", "statement": "h(-k) is obtained from the complex conjugate of h(k) by exchanging the two blocks, for every k.", "quantifier": "all reciprocal Hamiltonians and k", "why_tests_cant": "Continuum of k and arbitrary bond sets.", "anchors": ["src/magnopy/magnons/dispersion.py:MagnonDispersion.h"]}
{"id": "C37", "title": "Colpa diagonalization is para-unitary and diagonalizes", "statement": "When solve_via_colpa(D) succeeds it returns E and G such that G g G^dagger = g and D = G^dagger diag(E) G, for Hermitian positive definite D of any size; the first N energies are those of the N largest eigenvalues.", "quantifier": "all sizes N and all positive definite D, given correct Cholesky and eigen solvers", "why_tests_cant": "Matrix identity for every size.", "anchors": ["src/magnopy/magnons/diagonalization.py:solve_via_colpa"]}
{"id": "C38", "title": "omega always returns N energies", "statement": "omega(k) returns N real numbers whichever of the fallback attempts succeeds or if all fail, tiny values are returned as exactly 0; with return_G it returns 2N of them. (False for return_G when every attempt fails and zeros_to_none is off: N of them.)", "quantifier": "all success/failure patterns of the diagonalization", "why_tests_cant": "All exception paths.", "anchors": ["src/magnopy/magnons/dispersion.py:MagnonDispersion.omega"]}
{"id": "C39", "title": "Comments and blank lines never matter", "statement": "Inserting, removing or editing comment lines, inline comments and blank lines never changes what the text loader or verifier sees; the reported line numbers are those of the original file.", "quantifier": "all files", "why_tests_cant": "Every possible placement of comments.", "anchors": ["src/magnopy/io/txt/internal.py:_filter_txt_file"]}
{"id": "C40", "title": "Section order never matters", "statement": "A text model file with its sections permuted is verified identically and loads the same Hamiltonian.", "quantifier": "all files with distinct sections, all permutations", "why_tests_cant": "All permutations of all files.", "anchors": ["src/magnopy/io/txt/verify.py:_verify_model_file", "src/magnopy/io/txt/internal.py:load_spinham_txt"]}
{"id": "C41", "title": "A verified file loads", "statement": "If the verifier accepts a text model file, loading it does not crash. (False: a missing notation section with exchange present, and an undefined spin written as '-' are accepted but crash.)", "quantifier": "all accepted files", "why_tests_cant": "Implication over all files.", "anchors": ["src/magnopy/io/txt/verify.py:_verify_model_file", "src/magnopy/io/txt/internal.py:load_spinham_txt"]}
{"id": "C42", "title": "Text round trip", "statement": "dump_spinham_txt then load_spinham_txt restores the Hamiltonian up to the printed precision. (False for the spiral vector and for matrices of bonds with itself; see findings.)", "quantifier": "all Hamiltonians", "why_tests_cant": "All contents.", "anchors": ["src/magnopy/io/txt/internal.py:dump_spinham_txt", "src/magnopy/io/txt/internal.py:load_spinham_txt"]}
{"id": "C43", "title": "Declared units are applied", "statement": "Parameters read from a section that declares units are converted to the internal unit: loading the same file with units U gives parameters scaled by the conversion of U. (True for on-site; ignored for exchange bonds; joule raises NameError.)", "quantifier": "all files and units", "why_tests_cant": "All unit keywords and contents.", "anchors": ["src/magnopy/io/txt/internal.py:_read_exchange", "src/magnopy/io/txt/internal.py:_read_bond", "src/magnopy/io/txt/internal.py:_read_on_site"]}
{"id": "C44", "title": "A loaded bond and its auto-created mirror agree", "statement": "After loading a file with double counting in which only one direction of a bond is listed, the mirrored bond carries the transpose of the full bond matrix. (False when the bond has more than one data line.)", "quantifier": "all files", "why_tests_cant": "All orderings of data lines.", "anchors": ["src/magnopy/io/txt/internal.py:_read_bond", "src/magnopy/spinham/hamiltonian.py:SpinHamiltonian.add_exchange"]}
{"id": "C45", "title": "Lattice scale factor", "statement": "With a negative scale factor s in the cell section the loaded cell has volume |s|; with positive factors each lattice direction is scaled as declared. (The volume claim is false: no cube root is taken.)", "quantifier": "all cells and scales", "why_tests_cant": "Continuum.", "anchors": ["src/magnopy/io/txt/internal.py:_read_cell"]}
{"id": "C46", "title": "HDF5 round trip keeps atoms, order and parameters", "statement": "dump_spinham_hdf5 then load_spinham_hdf5 restores atoms in the same order and the same parameters. (The order is lost from ten atoms on, because groups are read in name order.)", "quantifier": "all Hamiltonians of any size", "why_tests_cant": "Only shows for large systems.", "anchors": ["src/magnopy/io/hdf5/internal.py:dump_spinham_hdf5", "src/magnopy/io/hdf5/internal.py:load_spinham_hdf5"]}
{"id": "C47", "title": "HDF5 overwrite never loses data", "statement": "If dump with overwrite=True fails at any point, the old group is still readable. (False: it is deleted first.)", "quantifier": "all crash points", "why_tests_cant": "Every crash point.", "anchors": ["src/magnopy/io/hdf5/internal.py:dump_spinham_hdf5"]}
{"id": "C48", "title": "Format detection", "statement": "load_spinham picks the loader from the explicit format (case-insensitive) or, if none is given, from the file name; every other format string is rejected before any file is opened.", "quantifier": "all file names and format strings", "why_tests_cant": "All strings.", "anchors": ["src/magnopy/io/__init__.py:load_spinham"]}
{"id": "C49", "title": "Vampire export leaves the Hamiltonian unchanged", "statement": "dump_vampire and its parts leave notation and parameters of the Hamiltonian as they were. (Only if they succeed.)", "quantifier": "all Hamiltonians, all points of failure", "why_tests_cant": "All contents and failure points.", "anchors": ["src/magnopy/io/txt/vampire.py:dump_vampire", "src/magnopy/io/txt/vampire.py:dump_ucf"]}
{"id": "C50", "title": "TB2J loader keeps the file's matrices", "statement": "After load_tb2j every bond of the file carries the matrix of its own entry, mirrored bonds absent from the file get the transposed matrix, and the notation is TB2J.", "quantifier": "all bond lists in any order", "why_tests_cant": "All orders of bonds.", "anchors": ["src/magnopy/io/txt/tb2j.py:load_tb2j", "src/magnopy/spinham/hamiltonian.py:SpinHamiltonian.add_exchange"]}
{"id": "C51", "title": "Boolean keywords", "statement": "The verifier accepts a boolean value iff the loader understands it, and the loader never reads an accepted value as the opposite one, whatever the letter case.", "quantifier": "all strings", "why_tests_cant": "All strings.", "anchors": ["src/magnopy/io/txt/verify.py:_is_bool", "src/magnopy/io/txt/internal.py:_read_notation"]}
{"id": "C52", "title": "Cone axis is a unit vector", "statement": "After a successful assignment of cone_axis the stored vector has length one and the direction of the given vector; a rejected assignment changes nothing.", "quantifier": "all vectors", "why_tests_cant": "Continuum.", "anchors": ["src/magnopy/spinham/hamiltonian.py:SpinHamiltonian.cone_axis"]}
{"id": "C53", "title": "Assigning the current notation changes nothing", "statement": "Assigning double_counting, spin_normalized, exchange_factor, on_site_factor or notation the value it already has leaves every parameter unchanged. (False for double_counting when mirrored bonds carry unrelated matrices: they are swapped; or when both directions are stored without double counting: one is dropped.)", "quantifier": "all Hamiltonians", "why_tests_cant": "Depends on the whole bond dictionary.", "anchors": ["src/magnopy/spinham/hamiltonian.py:SpinHamiltonian.double_counting", "src/magnopy/spinham/hamiltonian.py:SpinHamiltonian._ensure_double_counting"]}
{"id": "C54", "title": "Later search directions are descent directions", "statement": "When the quasi-Newton direction is not a restart, it has a positive inner product with the gradient, as the first one has, so that a small step along it lowers the energy. (False: the direction of the second step never has.)", "quantifier": "all gradients, step lengths and numbers of steps kept", "why_tests_cant": "A sign property over a continuum of gradients.", "anchors": ["src/magnopy/spinham/energy.py:Energy._compute_search_direction"]}
{"id": "C55", "title": "Local axes of the spins", "statement": "span_orthonormal_set(v) is a right-handed orthonormal triple whose third vector is the direction of v, for every nonzero v, and depends on the direction of v only. (Within the tolerance of +z and -z the third vector is the pole itself.)", "quantifier": "all nonzero vectors", "why_tests_cant": "Continuum, special cases near the poles.", "anchors": ["src/magnopy/magnons/dispersion.py:span_orthonormal_set"]}
{"id": "C56", "title": "The magnon matrix is periodic in reciprocal space", "statement": "For every reciprocal lattice vector G, h(k+G) is unitarily equivalent to h(k) by a diagonal matrix of phases that is the same in both blocks, so that the energies are periodic.", "quantifier": "all Hamiltonians, k and G", "why_tests_cant": "Infinitely many G and a continuum of k.", "anchors": ["src/magnopy/magnons/dispersion.py:MagnonDispersion.h", "src/magnopy/magnons/dispersion.py:MagnonDispersion.J"]}
{"id": "C57", "title": "Zero mode of isotropic ferromagnets", "statement": "If all bonds are isotropic, there is no on-site anisotropy and all spins are parallel, then h(0) annihilates the uniform rotation mode, for any notation and any set of bonds.", "quantifier": "all isotropic Hamiltonians with parallel spins", "why_tests_cant": "All bond sets, spin lengths and notations.", "anchors": ["src/magnopy/magnons/dispersion.py:MagnonDispersion.h", "src/magnopy/magnons/dispersion.py:MagnonDispersion.C"]}
{"id": "C58", "title": "Semidefinite magnon matrices are handled", "statement": "If h(k) or -h(k) is positive semidefinite, one of the attempts of omega succeeds and the energies are those of the matrix moved by at most 1e-8. (True for positive semidefinite matrices; false for negative semidefinite ones: the last attempt moves the matrix in the wrong direction and never succeeds where the attempt before failed.)", "quantifier": "all semidefinite matrices of any size, any diagonalization that succeeds exactly on positive definite matrices", "why_tests_cant": "All matrices of all sizes.", "anchors": ["src/magnopy/magnons/dispersion.py:MagnonDispersion.omega"]}
{"id": "C59", "title": "The dispersion and its Hamiltonian are independent", "statement": "Constructing MagnonDispersion(model) leaves the model unchanged whether it succeeds or not, later changes of the model never change h(k), and the construction succeeds whenever every atom with a parameter has a nonzero spin and a nonzero spin vector.", "quantifier": "all Hamiltonians, all later histories of calls", "why_tests_cant": "Aliasing between objects over arbitrary histories.", "anchors": ["src/magnopy/magnons/dispersion.py:MagnonDispersion.__init__", "src/magnopy/spinham/hamiltonian.py:SpinHamiltonian.copy"]}
{"id": "C60", "title": "Notations by name", "statement": "Assigning notation a name does the same as assigning the quadruple of that name, for exactly the four names Magnopy, TB2J, SpinW and Vampire in any letter case; any other string raises ValueError and changes nothing; a triple sets both factors; after a successful assignment the getter returns what was assigned.", "quantifier": "all strings, tuples and Hamiltonians", "why_tests_cant": "All strings.", "anchors": ["src/magnopy/spinham/hamiltonian.py:SpinHamiltonian.notation", "src/magnopy/spinham/hamiltonian.py:PREDEFINED_NOTATIONS"]}
{"id": "C61", "title": "The .UCF file describes the Hamiltonian", "statement": "dump_ucf lists every magnetic atom once and, in the Vampire notation, every on-site term and every bond once, with the parts of the matrix that were asked for; the energy Vampire computes from the file is the energy of the Hamiltonian. (Energy: true for the exchange part; the on-site part arrives with the factor 1/4, because exchange_like scales with exchange_factor/on_site_factor instead of its inverse.)", "quantifier": "all Hamiltonians convertible between notations, all materials, masks, spin configurations", "why_tests_cant": "The energy identity is over all Hamiltonians, notations and configurations.", "anchors": ["src/magnopy/io/txt/vampire.py:dump_ucf", "src/magnopy/spinham/hamiltonian.py:SpinHamiltonian.exchange_like"]}
{"id": "C62", "title": "Settings of Energy read back what was assigned", "statement": "The settings of an Energy instance (number of kept steps, Wolfe constants, magnetic field, g-factors, spins): assigning an accepted value and reading the attribute gives that value, reading or assigning one setting leaves the others, and a rejected value changes nothing. (wolfe_c2 reads wolfe_c1; g_factors and spins reject everything.)", "quantifier": "all values, all histories of assignments", "why_tests_cant": "All sequences of assignments.", "anchors": ["src/magnopy/spinham/energy.py:Energy.m", "src/magnopy/spinham/energy.py:Energy.wolfe_c1", "src/magnopy/spinham/energy.py:Energy.wolfe_c2", "src/magnopy/spinham/energy.py:Energy.g_factors", "src/magnopy/spinham/energy.py:Energy.spins"]}
{"id": "C63", "title": "The history file is a table", "statement": "After optimize with save_history to a file, the file consists of one line with the names of the columns and one line per written entry of the history, in order, each with as many words as there are names and with the energy, the torque targets and all coordinates of that entry. (Only for a new file: a second run with the same file name continues the last line.)", "quantifier": "all Hamiltonians, starting points, tolerances, history steps and numbers of iterations", "why_tests_cant": "Unbounded numbers of spins and iterations.", "anchors": ["src/magnopy/spinham/energy.py:_default_history_processor_ferro", "src/magnopy/spinham/energy.py:_default_history_processor_antiferro", "src/magnopy/spinham/energy.py:_default_history_processor_spiral", "src/magnopy/spinham/energy.py:Energy.optimize"]}
{"id": "C64", "title": "The summary of the minimization script", "statement": "magnopy-minimize-energy prints, for every selected type of minimization in the order of the selection, the energies it found, and writes the history of every run to its own file. (True for selections without the antiferromagnetic type; with it the summary ends with TypeError, the energies of other types are printed as antiferromagnetic ones, and the 26 runs share three history files.)", "quantifier": "all selections, all results of the optimizations", "why_tests_cant": "All selections and all results.", "anchors": ["src/magnopy/score/minimize_energy.py:manager", "src/magnopy/score/minimize_energy.py:_minimize_antiferro"]}
{"id": "C65", "title": "Converted TB2J files can be loaded", "statement": "magnopy-convert-tb2j writes, for every good TB2J file, a text or HDF5 file (the format is the one given, in any letter case, or follows from the suffix of the name) from which the Hamiltonian can be loaded. (False: the text file is written but can never be loaded, and the HDF5 file is never written, because the atoms have no spin.)", "quantifier": "all TB2J files with at least one atom, all file names and formats", "why_tests_cant": "All files.", "anchors": ["src/magnopy/score/convert_tb2j.py:manager", "src/magnopy/io/txt/internal.py:dump_spinham_txt", "src/magnopy/io/hdf5/internal.py:dump_spinham_hdf5"]}
{"id": "C66", "title": "Atoms of a text file", "statement": "load_spinham_txt turns every line of the section 'atoms' into one atom, in order, with the name, the position (relative as written, or absolute times unit and scale), the spin (by components, by length and angles, or by length along z), the charge and the g-factor that stand in the columns named in the section, columns in any order and letter case; without the column the documented default. The spin value of the Hamiltonian is the length of the spin vector.", "quantifier": "all accepted files, all orders of columns and sections", "why_tests_cant": "All texts.", "anchors": ["src/magnopy/io/txt/internal.py:_read_atoms", "src/magnopy/io/txt/internal.py:load_spinham_txt"]}
{"id": "C67", "title": "Cone axis and spiral vector of a text file", "statement": "load_spinham_txt takes three numbers of the section 'cone-axis' as a direction in the declared coordinates (relative by default) and normalises it, two numbers as its angles; the spiral vector is as written in absolute coordinates, and in relative coordinates the vector with the written scalar products with the lattice vectors in units of 2 pi. Without the section nothing is set.", "quantifier": "all accepted files", "why_tests_cant": "All texts and cells.", "anchors": ["src/magnopy/io/txt/internal.py:_read_cone_axis", "src/magnopy/io/txt/internal.py:_read_spiral_vector"]}
{"id": "C68", "title": "The magnon matrix is the second order of the classical energy", "statement": "For every Hamiltonian in any notation and every wave vector k, the quadratic form of h(k) on amplitudes psi is the second-order coefficient of the classical energy per cell of the spin wave with these amplitudes over the given spin directions, averaged over the phase of the wave; the first-order term averages to zero.", "quantifier": "all Hamiltonians that both storage conventions describe, with symmetric on-site matrices; all notations, spin vectors, k and psi", "why_tests_cant": "A statement about derivatives and integrals for all Hamiltonians; tests compare h with the same formulas.", "anchors": ["src/magnopy/magnons/dispersion.py:MagnonDispersion.h", "src/magnopy/magnons/dispersion.py:MagnonDispersion.A", "src/magnopy/magnons/dispersion.py:MagnonDispersion.B", "src/magnopy/magnons/dispersion.py:MagnonDispersion.C", "src/magnopy/magnons/dispersion.py:MagnonDispersion.J", "src/magnopy/magnons/dispersion.py:MagnonDispersion.__init__"]}
{"id": "C69", "title": "Spectra over a path and the files of the dispersion script", "statement": "MagnonDispersion.omegas returns an N x M array whose column m is omega at the m-th point; magnopy-magnon-dispersion writes one line per point of the path with the coordinate along the path, the N energies at exactly that point, and the point in relative and absolute coordinates, under matching names of columns; the files lie in the directory of the seedname (of the input if it has none) and carry its name ('dispersion' if it has none); additional k points are taken five arguments at a time and nothing given is lost. (The last part is false: up to four trailing arguments are ignored silently.)", "quantifier": "all Hamiltonians, paths, file names and arguments", "why_tests_cant": "Unbounded numbers of points and modes, all paths of files.", "anchors": ["src/magnopy/magnons/dispersion.py:MagnonDispersion.omegas", "src/magnopy/score/magnon_dispersion.py:manager"]}
{"id": "C70", "title": "The logo", "statement": "logo(info, line_length, flat, comment): every line begins with the comment string, all lines have the same length (at least line_length and the width of the picture) when the information fits, and the lines of information stand below the picture in the given order; with comment=True all lines are comments of the text format, with comment False or None there is no prefix. (Order: only up to eight lines of information; from nine on the last ones come first. comment=False prefixes every line with the word False.)", "quantifier": "all lists of information, line lengths and comments", "why_tests_cant": "All texts.", "anchors": ["src/magnopy/_pinfo.py:logo"]}
{"id": "C71", "title": "HDF5 files in declared units", "statement": "load_spinham_hdf5 reads every file of the format, whoever wrote it, in the units it declares (in any letter case): the lattice in Bohr or Angstrom, every exchange and on-site matrix in Rydberg, Joule, Kelvin, eV or meV (the last entry of a bond counts; with double counting a bond without an entry has the transposed matrix of its mirror), an absolute spiral vector in the reciprocal cell, a relative cone axis in the loaded cell, normalised; atoms and notation are as written. Files of the format with known names and units are accepted, nothing else is, and unknown units end with an error: ValueError for energies, KeyError for lengths.", "quantifier": "all trees of groups and datasets, all unit names", "why_tests_cant": "Arbitrary files, not only those the dump writes; the suite only reads files it has written.", "anchors": ["src/magnopy/io/hdf5/internal.py:load_spinham_hdf5"]}
{"id": "C72", "title": "The magnon matrix does not depend on how the Hamiltonian is written down", "statement": "Two Hamiltonians with the same spins, pairs, sites and couplings, in whatever notations, stored in whatever order and direction, give MagnonDispersion objects with the same number of modes and the same matrix h(k) at every k, for every order in which Python walks through the set of magnetic atoms; in particular assigning a notation before constructing the object changes nothing.", "quantifier": "all Hamiltonians that both storage conventions describe, atoms with different indices; all notations, spin vectors and k", "why_tests_cant": "Relates all pairs of notations and all orders of insertion and of set iteration.", "anchors": ["src/magnopy/magnons/dispersion.py:MagnonDispersion.__init__", "src/magnopy/magnons/dispersion.py:MagnonDispersion.h", "src/magnopy/spinham/hamiltonian.py:Hamiltonian.notation"]}
{"id": "C73", "title": "The magnon matrix does not depend on the Cartesian axes", "statement": "Rotate all spin vectors by a rotation O and every coupling J to O J O^T, and move cell and positions by an isometry P (possibly improper, unrelated to O): MagnonDispersion has the same number of modes and h(P k) equals h(k) up to one phase for each boson operator, the same phases for all k; so the magnon energies are the same.", "quantifier": "all Hamiltonians that both storage conventions describe, all rotations, isometries, notations, orders and k; all spin vectors for which the local axes are exact (not within numpy's tolerance of +-z, or exactly there)", "why_tests_cant": "All rotations at once: no finite set of orientations shows that the construction of local axes has no preferred direction.", "anchors": ["src/magnopy/magnons/dispersion.py:MagnonDispersion.__init__", "src/magnopy/magnons/dispersion.py:MagnonDispersion.h", "src/magnopy/magnons/dispersion.py:MagnonDispersion.J"]}
{"id": "C74", "title": "Classical energies do not depend on the Cartesian axes", "statement": "Rotate the spin directions, the magnetic field, the cone axis and every parameter by O, and the cell and the spiral vector by an isometry P: Energy.ferro, Energy.antiferro and Energy.spiral are unchanged, including which calls fail.", "quantifier": "all Hamiltonians with spins on all their atoms, all rotations, isometries, fields, directions, cone axes and spiral vectors", "why_tests_cant": "All rotations and all Hamiltonians.", "anchors": ["src/magnopy/spinham/energy.py:Energy.ferro", "src/magnopy/spinham/energy.py:Energy.antiferro", "src/magnopy/spinham/energy.py:Energy.spiral", "src/magnopy/spinham/energy.py:Energy.__init__"]}
{"id": "C75", "title": "solve_via_colpa returns the spectrum of the boson Hamiltonian", "statement": "Whenever solve_via_colpa(D) returns, the first N energies and the negatives of the last N are exactly the eigenvalues of g D with their multiplicities, degenerate or not; they do not depend on which eigenvectors numpy returns, nor on a para-unitary transformation T of the bosons (D -> T^dagger D T), which also does not change whether the routine fails; exchanging creation and annihilation operators reverses the list.", "quantifier": "all numbers of bosons, all matrices, all para-unitary T, all numerical routines that meet their contracts", "why_tests_cant": "All matrices of all sizes, including degenerate ones, and all choices of eigenvectors.", "anchors": ["src/magnopy/magnons/diagonalization.py:solve_via_colpa"]}
{"id": "C76", "title": "Magnon energies depend on the physics only", "statement": "The energies returned by MagnonDispersion.omega are the same for two Hamiltonians that describe the same model in different notations or storage orders, for the system described in other Cartesian axes (k moved with the crystal), and at k and k+G for every reciprocal lattice vector G; at -k the 2N energies (return_G=True) are those at k in the opposite order. This includes the outcome of the four attempts at a diagonalization, zeros and NaN, and both runs may use different numerical routines.", "quantifier": "all Hamiltonians, notations, rotations, isometries, k, G and options; all routines in place of numpy's cholesky, eig and argsort that meet their contracts", "why_tests_cant": "Relates pairs of runs over all Hamiltonians and k; eigenvectors and orders differ between the runs.", "anchors": ["src/magnopy/magnons/dispersion.py:MagnonDispersion.omega", "src/magnopy/magnons/dispersion.py:MagnonDispersion.__init__", "src/magnopy/magnons/diagonalization.py:solve_via_colpa"]}
{"id": "C77", "title": "Goldstone mode in the returned energies", "statement": "For isotropic exchange without on-site terms and with all spins along one direction, omega at k=0 returns an energy that is exactly 0 (or only NaN, when zeros_to_none is set and no attempt at a diagonalization succeeds), whatever the signs of the couplings.", "quantifier": "all such Hamiltonians, all options, all routines in place of numpy's that meet their contracts", "why_tests_cant": "All Hamiltonians of the class, including those with unstable ground states.", "anchors": ["src/magnopy/magnons/dispersion.py:MagnonDispersion.omega", "src/magnopy/magnons/dispersion.py:MagnonDispersion.h", "src/magnopy/magnons/diagonalization.py:solve_via_colpa"]}
{"id": "C78", "title": "Magnon energies in closed form", "statement": "For a Hamiltonian with one magnetic atom in the cell, in any notation, omega returns the energy of Bogoliubov's transformation (A(k)-A(-k))/2 + sqrt(((A(k)+A(-k))/2)^2-|B(k)|^2) with A and B given as sums over the stored exchange and on-site parameters, when A(k)>0 and A(k)A(-k)>|B(k)|^2. For isotropic exchange without on-site terms it returns 2 f s^2/S sum_b J_b (cos(k R_b)-1) for every k and every sign of the couplings (f the exchange factor, s the spin length of the notation). Values below 1e-8 are returned as 0.", "quantifier": "all such Hamiltonians and notations, cells, wave vectors, spin directions, options, all routines in place of numpy's that meet their contracts", "why_tests_cant": "Tests compare with textbook formulas for particular Hamiltonians, notations and points; the formula is stated for the stored numbers of every notation.", "anchors": ["src/magnopy/magnons/dispersion.py:MagnonDispersion.__init__", "src/magnopy/magnons/dispersion.py:MagnonDispersion.omega", "src/magnopy/magnons/dispersion.py:MagnonDispersion.h", "src/magnopy/magnons/diagonalization.py:solve_via_colpa"]}
{"id": "C79", "title": "Magnons of a stable state", "statement": "If no nearby arrangement of the spins, periodic in any supercell, has a lower classical energy than the given spin directions, then MagnonDispersion.omega(k) is, for every wave vector k, a list of N real numbers that are not negative (never NaN), and h(k) is positive semidefinite. States in which every bond and site parameter has its lowest possible energy (ferromagnets, unfrustrated antiferromagnets) are stable in this sense.", "quantifier": "all Hamiltonians that both storage conventions describe, with symmetric on-site matrices; all notations, stable states, wave vectors and options", "why_tests_cant": "Joins the classical energy to the result of a diagonalization for a continuum of wave vectors.", "anchors": ["src/magnopy/magnons/dispersion.py:MagnonDispersion.omega", "src/magnopy/magnons/dispersion.py:MagnonDispersion.h", "src/magnopy/magnons/diagonalization.py:solve_via_colpa"]}
{"id": "C80", "title": "Command lines of the scripts", "statement": "The scripts magnopy-convert-tb2j, magnopy-magnon-dispersion and magnopy-minimize-energy run manager on exactly the values a command line asks for (the last mention of an option wins, options not mentioned have their documented value) and refuse every command line with an unknown option, a wrong number of arguments, a value outside the choices or without the input file. They do what manager does when called from Python with the same parameters (false for the minimization: without ground_state_type manager always raises, the script minimizes all types). The minimization writes nothing but <seedname>-results besides the histories; results of an earlier run survive a run that fails before the minimization (false: the file is emptied first). The command magnopy answers every command and never raises.", "quantifier": "all sequences of options with arguments, all numbers, all earlier contents of the files, all outcomes of loading and minimizing", "why_tests_cant": "All orders, repetitions and combinations of options; tests start the scripts with a few command lines.", "anchors": ["src/magnopy/score/minimize_energy.py:manager", "src/magnopy/score/minimize_energy.py:create_parser", "src/magnopy/score/magnon_dispersion.py:create_parser", "src/magnopy/score/convert_tb2j.py:create_parser", "src/magnopy/__main__.py:main"]}
{"id": "C81", "title": "Sizes of units", "statement": "Values read in a declared unit agree with the physical value to nine digits: on-site parameters and lattice vectors of text files, all parameters and lattice vectors of HDF5 files, declared in meV, eV, Joule, Kelvin, Rydberg, Angstrom or Bohr in any case of letters, are those numbers times the CODATA size of the unit in meV or Angstrom; the energy in a magnetic field given in Tesla is 0.0578838 meV per Tesla and Bohr magneton.", "quantifier": "all files, all values, all unit words", "why_tests_cant": "A wrong digit in a constant scales every value read in that unit; tests compare the code with its own constants.", "anchors": ["src/magnopy/units/si.py:BOHR_RADIUS", "src/magnopy/units/inside.py:ENERGY", "src/magnopy/io/txt/internal.py:_read_on_site", "src/magnopy/io/hdf5/internal.py:load_spinham_hdf5", "src/magnopy/spinham/energy.py:Energy"]}
{"id": "C82", "title": "Branches of a collinear antiferromagnet", "statement": "For a Hamiltonian with two magnetic atoms in the cell whose spins point in opposite directions n and -n (of equal or different lengths), with exchange x S.S' + z (n.S)(n.S') on the bonds and uniaxial anisotropy y (n.S)^2, in any notation, omega(k) returns r + |A-B|/2 and r - |A-B|/2, in this order, where r = sqrt(((A+B)/2)^2 - g^2), A and B are the energies of a deviation staying on one sublattice and g is the modulus of the structure factor of the bonds between the sublattices, all given as sums over the stored parameters; provided A > 0 and g^2 < A B. Values below 1e-8 are returned as 0.", "quantifier": "all such Hamiltonians and notations, cells, positions, wave vectors, common directions of the spins (not within the tolerance of a pole, or exactly there), orders of atoms and options; all routines in place of numpy's that meet their contracts", "why_tests_cant": "Tests compare with textbook formulas for single antiferromagnets at single points; the formula covers every range of couplings, both orders of the atoms and every notation.", "anchors": ["src/magnopy/magnons/dispersion.py:MagnonDispersion.__init__", "src/magnopy/magnons/dispersion.py:MagnonDispersion.omega", "src/magnopy/magnons/dispersion.py:MagnonDispersion.h", "src/magnopy/magnons/diagonalization.py:solve_via_colpa"]}
{"id": "C83", "title": "Messages of the text file verifier", "statement": "The verifier logs errors exactly when it refuses the file: a file is accepted if and only if no message of the level error is logged (also when the check of the atoms section ends in IndexError). Every message is true of the file: what it quotes stands where it says and is at fault in the way it says, for each of the 35 kinds of messages. Every message names a line that shows something in the file, counted from 1 with comments and blank lines included, except for five fixed messages and the one on three scales. Not true, and refuted: that the block number of a message is the position of the word (on lines with a keyword it is one less), that all faults are reported (later checks are skipped once there is an error), that duplicates are reported only where there are two atoms, and that no message comes twice.", "quantifier": "all lists of lines as the content of a file; all float and int conversions of words", "why_tests_cant": "Tests look at the verdict on sample files; that a message is never wrong about the file and never missing needs all faulty files.", "anchors": ["src/magnopy/io/txt/verify.py:_verify_model_file", "src/magnopy/io/txt/verify.py:_verify_numerical_data_block", "src/magnopy/io/txt/verify.py:_verify_atoms", "src/magnopy/io/txt/internal.py:_filter_txt_file"]}
{"id": "C84", "title": "Filtered copies of text files", "statement": "load_spinham_txt(filename, save_filtered=True) returns what it returns without saving, leaves the file and every other file as they were, and writes a file filtered_<filename> whose lines are exactly the texts shown by the file, in order, without comments, blank lines and surrounding white space; loading this copy gives the same Hamiltonian or the same exception. This holds if the copy can be written. Not true, and refuted: that it can be written whenever the file can be read; the prefix is put before the whole path, so for a file in another directory the copy is sought in filtered_<directory> and the call ends with an exception.", "quantifier": "all disks, texts of files (any line breaks), file names, both line separators, all conversions of words to numbers", "why_tests_cant": "Tests filter lines given as a list; the round trip through a file with every placement of comments and line breaks needs a proof.", "anchors": ["src/magnopy/io/txt/internal.py:_filter_txt_file", "src/magnopy/io/txt/internal.py:load_spinham_txt"]}
{"id": "C85", "title": "Branches of a two-atom ferromagnet", "statement": "For a Hamiltonian with two magnetic atoms in the cell whose spins point in the same direction n (of equal or different lengths), with exchange x S.S' + z (n.S)(n.S') on the bonds and uniaxial anisotropy y (n.S)^2, in any notation, omega(k) returns (A+B)/2 + r and (A+B)/2 - r, in this order, where r = sqrt(((A-B)/2)^2 + g^2), A and B are the energies of a deviation staying on one sublattice and g is the modulus of the structure factor of the bonds between the sublattices, all given as sums over the stored parameters; provided A > 0 and g^2 < A B. The condition holds and both energies are positive at every k if the factors of the notation are positive, no x, z, y is positive and z < 0 on some bond between the atoms. Values below 1e-8 are returned as 0.", "quantifier": "all such Hamiltonians and notations, cells, positions, wave vectors, common directions of the spins (not within the tolerance of a pole, or exactly there), orders of atoms and options; all routines in place of numpy's that meet their contracts", "why_tests_cant": "Tests compare with textbook formulas for single ferromagnets at single points; the formula and its validity at every k cover every range of couplings, both orders of the atoms and every notation.", "anchors": ["src/magnopy/magnons/dispersion.py:MagnonDispersion.__init__", "src/magnopy/magnons/dispersion.py:MagnonDispersion.omega", "src/magnopy/magnons/dispersion.py:MagnonDispersion.h", "src/magnopy/magnons/diagonalization.py:solve_via_colpa"]}
{"id": "C86", "title": "The .mat file of the export to Vampire", "statement": "dump_mat announces the greatest material plus one (without materials: the number of magnetic atoms) and writes exactly one description for each material of the magnetic atoms, in the order of first occurrence, numbered from one, with the name and the spin of the first atom of the material; the Hamiltonian is unchanged. It fails only for an empty or too short list of materials, a first atom without spin, or a file that cannot be opened. Every atom of the .UCF file written from the same Hamiltonian has its material described; the numbers of materials in the two files agree when the materials are numbered without gaps from zero (otherwise they need not, and materials up to the announced number are missing).", "quantifier": "all Hamiltonians, lists of materials, file names, iteration orders of sets", "why_tests_cant": "Tests write files for default materials and compare nothing between the two files; lists with gaps, repetitions or too few entries are not covered.", "anchors": ["src/magnopy/io/txt/vampire.py:dump_mat", "src/magnopy/io/txt/vampire.py:dump_ucf", "src/magnopy/io/txt/vampire.py:dump_vampire"]}
{"id": "C87", "title": "Descriptions of the same cone state", "statement": "spiral and antiferro give the same energy for spiral vectors that differ by a vector of the reciprocal lattice of the cell, and for the opposite axis with the opposite spiral vector. Without a field, the energy of a spiral does not change when all spins are turned about the cone axis by the same angle. If every exchange and on-site parameter is a multiple of the scalar product, antiferro equals spiral in every field and, without a field, spiral with zero vector about any axis equals ferro, and ferro and spiral do not change when the spins and the axis are rotated. With anisotropic parameters a spiral with zero vector need not have the energy of the collinear state with the same spins (false in general, refuted by a spin along its easy axis).", "quantifier": "all Hamiltonians in any notation and the energy objects made from them, cells, spins in every accepted or refused shape, axes, spiral and reciprocal vectors, angles, fields and rotations", "why_tests_cant": "Tests compare single numbers; these are equalities between calls with different arguments, over continuous families of arguments, and they also cover the calls that are refused.", "anchors": ["src/magnopy/spinham/energy.py:Energy.spiral", "src/magnopy/spinham/energy.py:Energy.antiferro", "src/magnopy/spinham/energy.py:Energy.ferro", "src/magnopy/spinham/energy.py:Energy.__init__"]}
{"id": "C88", "title": "The state along the easy axis has the lowest energy", "statement": "For exchange x S.S' + z (n.S)(n.S') that favours parallel spins (factor times x and z not positive) and on-site terms x S.S + y (n.S)^2 that favour the unit vector n (factor times y not positive), in any notation and with spins that are not negative: whenever ferro, spiral or antiferro return an energy without a field, for any directions, cone axis and spiral vector, ferro with all spins along n returns an energy that is not higher. The same holds of ferro in a field along n for which mu_B g H is not positive.", "quantifier": "all such Hamiltonians and notations, cells, orders of the atoms and g-factors; every argument of ferro, spiral and antiferro that is accepted", "why_tests_cant": "A test can compare the aligned state with finitely many others; the claim bounds the energies over the whole sphere of directions of every atom and over all axes and spiral vectors, and is what makes the result of optimize() comparable with the known ground state.", "anchors": ["src/magnopy/spinham/energy.py:Energy.ferro", "src/magnopy/spinham/energy.py:Energy.spiral", "src/magnopy/spinham/energy.py:Energy.antiferro", "src/magnopy/spinham/energy.py:Energy.__init__"]}
{"id": "C89", "title": "Reversed spins and the magnetic field", "statement": "ferro, spiral and antiferro return the same energy, or raise the same error, when all spins and the field are reversed. For fixed spins, cone axis and spiral vector the energy in a field is the energy without one plus a linear function of the field (in particular a zero field is no field), and a call that is refused without a field is refused with the same error in every field.", "quantifier": "all energy objects and parameters, fields, spins in every accepted or refused shape, cone axes and spiral vectors", "why_tests_cant": "Tests evaluate single fields; linearity and the symmetry are equalities over all fields and directions, and include the calls that fail.", "anchors": ["src/magnopy/spinham/energy.py:Energy.ferro", "src/magnopy/spinham/energy.py:Energy.spiral", "src/magnopy/spinham/energy.py:Energy.antiferro", "src/magnopy/spinham/energy.py:Energy.magnetic_field"]}
{"id": "C90", "title": "The collinear state of an unfrustrated magnet has the lowest energy", "statement": "Let the atoms be divided into two sublattices such that exchange x S.S' + z (n.S)(n.S') favours parallel spins within each of them and antiparallel spins between them, with on-site terms x S.S + y (n.S)^2 that favour the unit vector n, in any notation and with spins that are not negative. Whatever energy ferro, spiral or antiferro return without a field, for any directions, cone axis and spiral vector, ferro with the spins of one sublattice along n and of the other against n, in the order of magnetic_atoms, returns an energy that is not higher. With one sublattice empty this is C88 without a field.", "quantifier": "all such Hamiltonians with any number of atoms, divisions, notations, cells and orders of the atoms; every argument of ferro, spiral and antiferro that is accepted", "why_tests_cant": "A test can compare the collinear state with finitely many others; the claim bounds the energies over all directions of all spins, all axes and all spiral vectors.", "anchors": ["src/magnopy/spinham/energy.py:Energy.ferro", "src/magnopy/spinham/energy.py:Energy.spiral", "src/magnopy/spinham/energy.py:Energy.antiferro", "src/magnopy/spinham/energy.py:Energy.__init__", "src/magnopy/spinham/hamiltonian.py:SpinHamiltonian.magnetic_atoms"]}
{"id": "C91", "title": "Energies and magnons are proportional to the parameters", "statement": "Let one Hamiltonian have the same atoms, spins and notation as another and every exchange and on-site parameter c times that of the other, stored in any order. With the field multiplied by c too, ferro, spiral and antiferro return c times the energy of the other for all arguments, and refuse the same arguments with the same errors; c may be any number. The matrix h(k) of the magnons is c times the other at every k, also when the two Hamiltonians are written down in different notations.", "quantifier": "all Hamiltonians and all numbers c; all directions, cone axes, spiral vectors and fields; all k", "why_tests_cant": "A test can compare single numbers c and states; the claim covers all of them and excludes that any term, such as the on-site term or the one of the field, scales differently.", "anchors": ["src/magnopy/spinham/energy.py:Energy.ferro", "src/magnopy/spinham/energy.py:Energy.spiral", "src/magnopy/spinham/energy.py:Energy.antiferro", "src/magnopy/spinham/energy.py:Energy.__init__", "src/magnopy/magnons/dispersion.py:MagnonDispersion.h"]}
