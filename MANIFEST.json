{
 "claims": [
  {
   "property": "C01",
   "status": "proved",
   "theorems": [
    "C01_decomposition",
    "C01_decomposition_unique"
   ],
   "note": "Any field of characteristic not 2 or 3."
  },
  {
   "property": "C02",
   "status": "proved",
   "theorems": [
    "C02_set_iso",
    "C02_set_dmi"
   ],
   "note": ""
  },
  {
   "property": "C03",
   "status": "partial",
   "theorems": [
    "C03_set_aniso_partial",
    "C03_set_aniso_refuted"
   ],
   "note": "The full claim is false; C03_set_aniso_partial characterises exactly the arrays for which it holds, C03_set_aniso_refuted is the counterexample."
  },
  {
   "property": "C04",
   "status": "proved",
   "theorems": [
    "C04_constructor"
   ],
   "note": "For a symmetric traceless aniso, as claimed."
  },
  {
   "property": "C05",
   "status": "proved",
   "theorems": [
    "C05_transpose",
    "C05_arithmetic"
   ],
   "note": "Operands are values in this part of the model, so they cannot change."
  },
  {
   "property": "C06",
   "status": "proved",
   "theorems": [
    "C06_first_interpretation",
    "C06_first_double_counting"
   ],
   "note": ""
  },
  {
   "property": "C07",
   "status": "proved",
   "theorems": [
    "C07_exchange_factor",
    "C07_on_site_factor",
    "C07_spin_normalized",
    "C07_shared_object_refuted"
   ],
   "note": "Under the stated quantifier (distinct parameter objects, nonzero spins and factors); C07_shared_object_refuted shows that distinct objects are needed."
  },
  {
   "property": "C08",
   "status": "partial",
   "theorems": [
    "C08_switch_off_partial",
    "C08_switch_on_partial",
    "C08_notation_partial",
    "C08_unequal_mirrors_refuted",
    "C08_self_bond_refuted",
    "C08_both_directions_refuted"
   ],
   "note": "The full claim is false (three counterexamples, *_refuted). Proved for reciprocal storage, also for a whole notation at once."
  },
  {
   "property": "C09",
   "status": "proved",
   "theorems": [
    "C09_round_trip",
    "C09_path_independent"
   ],
   "note": ""
  },
  {
   "property": "C10",
   "status": "partial",
   "theorems": [
    "C10_unknown_notation_partial",
    "C10_exchange_factor_partial",
    "C10_on_site_factor_partial",
    "C10_spin_normalized_partial",
    "C10_double_counting_partial",
    "C10_missing_spin_refuted",
    "C10_backward_bond_refuted",
    "C10_notation_half_done_refuted"
   ],
   "note": "The full claim is false (three counterexamples). Proved: unknown notations and zero factors are rejected without a trace, a rejected spin_normalized changes no notation property, a rejected double_counting changes no parameter."
  },
  {
   "property": "C11",
   "status": "proved",
   "theorems": [
    "C11_mirrors_together",
    "C11_reachable_sane"
   ],
   "note": "Over all histories, including calls that raise."
  },
  {
   "property": "C12",
   "status": "partial",
   "theorems": [
    "C12_transposed_partial",
    "C12_overwrite_refuted",
    "C12_in_place_refuted"
   ],
   "note": "The full claim is false (C12_overwrite_refuted); proved for all histories that do not overwrite a bond, modify or reuse a parameter object in place, or add a bond of an atom with itself in its own cell."
  },
  {
   "property": "C13",
   "status": "partial",
   "theorems": [
    "C13_canonical",
    "C13_complete_partial",
    "C13_self_bond_lost_refuted"
   ],
   "note": "Canonical direction and absence of mirrors are proved in full; that no pair is lost is false for a bond of an atom with itself in the same cell (C13_self_bond_lost_refuted) and proved otherwise."
  },
  {
   "property": "C14",
   "status": "proved",
   "theorems": [
    "C14_add_exchange",
    "C14_add_exchange_keywords",
    "C14_add_exchange_succeeds",
    "C14_remove_exchange",
    "C14_remove_exchange_reject",
    "C14_membership",
    "C14_membership_on_site",
    "C14_add_on_site"
   ],
   "note": ""
  },
  {
   "property": "C15",
   "status": "partial",
   "theorems": [
    "C15_remove_atom_exact",
    "C15_remove_atom_succeeds_partial",
    "C15_double_counting_fails",
    "C15_remove_atom_refuted"
   ],
   "note": "The full claim is false (C15_remove_atom_refuted). Proved: exact effect whenever it succeeds, success unless a non-self bond of the atom exists under double counting, KeyError always in that remaining case."
  },
  {
   "property": "C16",
   "status": "partial",
   "theorems": [
    "C16_remove_by_object_partial",
    "C16_remove_present",
    "C16_remove_by_name_never_works",
    "C16_remove_by_name_refuted"
   ],
   "note": "The full claim is false: by name nothing is ever removed (proved for all states). By object it is proved."
  },
  {
   "property": "C17",
   "status": "proved",
   "theorems": [
    "C17_filter_exact",
    "C17_filter_idempotent",
    "C17_filter_order"
   ],
   "note": ""
  },
  {
   "property": "C18",
   "status": "proved",
   "theorems": [
    "C18_copy_independent",
    "C18_filtered"
   ],
   "note": "Later calls must not be handed parameter objects of the other Hamiltonian."
  },
  {
   "property": "C19",
   "status": "proved",
   "theorems": [
    "C19_magnetic_atoms"
   ],
   "note": ""
  },
  {
   "property": "C20",
   "status": "partial",
   "theorems": [
    "C20_listing",
    "C20_energy_partial",
    "C20_energy_refuted"
   ],
   "note": "The energy claim is false unless the squared factors agree (C20_energy_refuted); the listing is proved in full."
  },
  {
   "property": "C21",
   "status": "partial",
   "theorems": [
    "C21_double_counting",
    "C21_no_double_counting_partial",
    "C21_raises_refuted",
    "C21_energy_refuted"
   ],
   "note": "proved: with double counting the constructor leaves the notation and all parameters unchanged; without it for storages holding each pair once in the kept direction (_partial). Refuted: a raise can leave double counting on (C21_raises_refuted), with both directions stored and double counting off the energy changes (C21_energy_refuted)"
  },
  {
   "property": "C22",
   "status": "partial",
   "theorems": [
    "C22_double_counting_partial",
    "C22_shared_refuted"
   ],
   "note": "proved with double counting for all later histories (C22_double_counting_partial); refuted without it (C22_shared_refuted): parameter objects are shared"
  },
  {
   "property": "C23",
   "status": "partial",
   "theorems": [
    "C23_value",
    "C23_classical_partial",
    "C23_classical_refuted"
   ],
   "note": "value for every notation (C23_value); equal to the classical energy with double counting, unnormalized spins, equal squared factors; each condition is needed (C23_classical_refuted)"
  },
  {
   "property": "C24",
   "status": "proved",
   "theorems": [
    "C24_ferro",
    "C24_ferro_one_spin",
    "C24_antiferro",
    "C24_antiferro_one_spin",
    "C24_spiral",
    "C24_spiral_one_spin"
   ],
   "note": ""
  },
  {
   "property": "C25",
   "status": "proved",
   "theorems": [
    "C25_spiral",
    "C25_antiferro",
    "C25_total"
   ],
   "note": "spiral: average over all phases as a Riemann integral; antiferro: average over the phases 0 and pi, for every spiral vector; exact real arithmetic"
  },
  {
   "property": "C26",
   "status": "partial",
   "theorems": [
    "C26_spiral_field",
    "C26_antiferro_field",
    "C26_spiral_refuted",
    "C26_antiferro_refuted"
   ],
   "note": "the claim is false (C26_spiral_refuted, C26_antiferro_refuted); proved what is added instead (C26_spiral_field, C26_antiferro_field)"
  },
  {
   "property": "C27",
   "status": "proved",
   "theorems": [
    "C27_ferro_step",
    "C27_ferro_step_defined",
    "C27_antiferro_step",
    "C27_antiferro_step_defined",
    "C27_spiral_step",
    "C27_spiral_step_defined",
    "C27_ferro_run",
    "C27_antiferro_run",
    "C27_spiral_run"
   ],
   "note": "arrays are values in the model, so aliasing of the coordinate arrays is outside"
  },
  {
   "property": "C28",
   "status": "partial",
   "theorems": [
    "C28_spins_partial",
    "C28_energy",
    "C28_derivative",
    "C28_q_moves",
    "C28_q_ascends",
    "C28_q_refuted"
   ],
   "note": "spin part proved for exact differences (C28_spins_partial): the code differentiates the energy of normalized vectors numerically; q part refuted (C28_q_refuted), it ascends with slope |g|^2 (C28_q_ascends)"
  },
  {
   "property": "C29",
   "status": "proved",
   "theorems": [
    "C29_derivative",
    "C29_layout"
   ],
   "note": ""
  },
  {
   "property": "C30",
   "status": "partial",
   "theorems": [
    "C30_layout",
    "C30_layout_refuted",
    "C30_axis_never_moves"
   ],
   "note": "refuted (C30_layout_refuted); proved the actual layout and that the axis never moves in any run"
  },
  {
   "property": "C31",
   "status": "proved",
   "theorems": [
    "C31_stops",
    "C31_ends"
   ],
   "note": "energies, gradients and updates are arbitrary partial functions"
  },
  {
   "property": "C32",
   "status": "proved",
   "theorems": [
    "C32_found",
    "C32_not_found"
   ],
   "note": ""
  },
  {
   "property": "C33",
   "status": "partial",
   "theorems": [
    "C33_bound_partial",
    "C33_refuted"
   ],
   "note": "refuted with all default settings on a reachable Hamiltonian (C33_refuted); proved the bound that holds instead"
  },
  {
   "property": "C34",
   "status": "partial",
   "theorems": [
    "C34_unlimited_partial",
    "C34_written",
    "C34_refuted"
   ],
   "note": "proved without max_iterations; what is written in all cases (C34_written); refuted with max_iterations"
  },
  {
   "property": "C35",
   "status": "proved",
   "theorems": [
    "C35_hermitian",
    "C35_refuted"
   ],
   "note": "for reciprocal Hamiltonians with symmetric on-site matrices and unshared parameter objects; refuted for a non-symmetric on-site matrix"
  },
  {
   "property": "C36",
   "status": "proved",
   "theorems": [
    "C36_particle_hole"
   ],
   "note": "for reciprocal Hamiltonians with symmetric on-site matrices and unshared parameter objects"
  },
  {
   "property": "C37",
   "status": "partial",
   "theorems": [
    "C37_diagonalizes_partial",
    "C37_energies",
    "C37_modes",
    "C37_failed",
    "C37_refuted"
   ],
   "note": "C37_diagonalizes_partial: para-unitarity and D = G^dagger E G for every size, for energies that do not repeat within a half or an eigen solver with orthogonal eigenvectors (Hermitian eigenvectors of different eigenvalues are proved orthogonal); C37_energies: all energies positive and ordered (inertia), without that hypothesis; C37_failed: ColpaFailed exactly for matrices that are not positive definite; C37_modes. C37_refuted: with repeated energies numpy.linalg.eig may return non-orthogonal eigenvectors and then G is neither para-unitary nor diagonalizes D. Exact arithmetic; the numpy solvers enter through their contracts."
  },
  {
   "property": "C38",
   "status": "partial",
   "theorems": [
    "C38_count",
    "C38_values",
    "C38_count_return_G",
    "C38_return_G_refuted",
    "C38_tiny_refuted"
   ],
   "note": "count and values proved, given the diagonalization returns 2N real energies; with return_G refuted when every attempt fails and zeros_to_none is off; tiny real parts of complex energies survive (refuted)"
  },
  {
   "property": "C39",
   "status": "proved",
   "theorems": [
    "C39_same",
    "C39_line_numbers"
   ],
   "note": "cosmetic edits (comments, blank lines, white space around text) leave loader and verifier unchanged; kept lines carry original numbers"
  },
  {
   "property": "C40",
   "status": "proved",
   "theorems": [
    "C40_order"
   ],
   "note": "any permutation of distinct sections; sections may not start with a too short separator (the verifier rejects such files anyway)"
  },
  {
   "property": "C41",
   "status": "partial",
   "theorems": [
    "C41_loads_partial",
    "C41_notation_refuted",
    "C41_spin_refuted",
    "C41_joule_refuted"
   ],
   "note": "C41_loads_partial: accepted files load if a notation section goes with parameters, no spin is written \"-\", exchange is not declared in joule, and cell and cone axis are not degenerate; the full claim is false, three C41_*_refuted files"
  },
  {
   "property": "C42",
   "status": "partial",
   "theorems": [
    "C42_partial",
    "C42_near_partial",
    "C42_written",
    "C42_spiral_refuted",
    "C42_self_bond_refuted",
    "C42_only_self_bonds_refuted",
    "C42_antisymmetric_refuted",
    "C42_spinless_refuted",
    "C42_nothing_written_refuted",
    "C42_same_names_refuted"
   ],
   "note": "The statement as given is false in five ways, each with a C42_..._refuted theorem: the spiral vector, bonds of an atom with itself, antisymmetric on-site parts, atoms without spin, files without any bond data. C42_partial says exactly what comes back for every Hamiltonian and every choice of written parts; C42_near_partial that with the default settings all numbers are within the printed precision. Missing from full strength: only what is refuted. Printing and parsing of digits are assumed (record prints), and instantiated in C42_example by an exact printer."
  },
  {
   "property": "C43",
   "status": "partial",
   "theorems": [
    "C43_on_site",
    "C43_exchange_partial",
    "C43_exchange_exact",
    "C43_exchange_refuted"
   ],
   "note": "on-site: proved for every unit (C43_on_site). Exchange: false (C43_exchange_refuted, joule: C41_joule_refuted); C43_exchange_exact gives what is read, C43_exchange_partial the correct case"
  },
  {
   "property": "C44",
   "status": "partial",
   "theorems": [
    "C44_mirror_partial",
    "C44_mirror_exact",
    "C44_mirror_refuted"
   ],
   "note": "proved for bonds with one data line; C44_mirror_exact gives the mirror in general (transpose of the first data line), C44_mirror_refuted a file with two lines"
  },
  {
   "property": "C45",
   "status": "partial",
   "theorems": [
    "C45_positive",
    "C45_negative_exact",
    "C45_negative_refuted"
   ],
   "note": "positive factors proved; a negative factor gives r^3 V with r = |s|/|V| (C45_negative_exact), C45_negative_refuted"
  },
  {
   "property": "C46",
   "status": "partial",
   "theorems": [
    "C46_round_trip",
    "C46_small",
    "C46_order_lost",
    "C46_order_refuted",
    "C46_same_name_refuted",
    "C46_succeeds",
    "C46_found",
    "C46_ambiguous"
   ],
   "note": "Everything except the order of atoms comes back for every complete Hamiltonian with distinct names (C46_round_trip); up to nine atoms the order too (C46_small). From ten atoms on the order is always lost (C46_order_lost, refuted); atoms of the same name cannot be read back (refuted). File abstracted to the tree of groups, attributes and datasets, members in the order of names."
  },
  {
   "property": "C47",
   "status": "partial",
   "theorems": [
    "C47_refuted",
    "C47_silent_refuted",
    "C47_lost",
    "C47_elsewhere",
    "C47_no_overwrite",
    "C47_complete"
   ],
   "note": "Refuted twice: the old group is deleted first; what is left cannot be loaded or loads without parameters. C47_lost shows that this happens at every failure; C47_elsewhere that the rest of the file is safe. Failures are the exceptions of the dump; errors of the storage itself are not modelled."
  },
  {
   "property": "C48",
   "status": "proved",
   "theorems": [
    "C48_loader",
    "C48_unambiguous",
    "C48_refuses"
   ],
   "note": "every file name and format string (ASCII); the loaders themselves are parameters"
  },
  {
   "property": "C49",
   "status": "partial",
   "theorems": [
    "C49_ucf_partial",
    "C49_vampire_partial",
    "C49_succeeds",
    "C49_failure",
    "C49_vampire_failure",
    "C49_unset_notation",
    "C49_mat",
    "C49_short_materials_refuted",
    "C49_writing_mask_refuted"
   ],
   "note": "Success restores notation, parameters, atoms and spins for every convertible Hamiltonian and every mask that does not write to its argument (C49_ucf_partial, C49_vampire_partial). Failures are classified completely (C49_failure): after a too short materials list or a raising mask the Hamiltonian stays in the Vampire notation (refuted). A mask that writes to its argument changes the parameters (refuted). dump_mat never changes anything. File text abstracted to the values printed."
  },
  {
   "property": "C50",
   "status": "proved",
   "theorems": [
    "C50_loads",
    "C50_frame",
    "C50_entry",
    "C50_unique",
    "C50_mirror",
    "C50_nothing_else",
    "C50_trailing_separator",
    "C50_blank_after_atoms"
   ],
   "note": "files of the TB2J form with distinct atom names, entries in any order; two theorems on malformed files (trailing separator, empty line after the atoms)"
  },
  {
   "property": "C51",
   "status": "proved",
   "theorems": [
    "C51_words",
    "C51_unambiguous",
    "C51_letter_case",
    "C51_value",
    "C51_loaded"
   ],
   "note": "words, letter case, single values and whole files; ASCII"
  },
  {
   "property": "C52",
   "status": "proved",
   "theorems": [
    "C52_accepts",
    "C52_unit",
    "C52_rejected",
    "C52_spiral",
    "C52_always"
   ],
   "note": "real arithmetic; all array arguments, including other shapes; vectors within the tolerance of zero are rejected"
  },
  {
   "property": "C53",
   "status": "partial",
   "theorems": [
    "C53_reassign_notation_partial",
    "C53_reassign_simple",
    "C53_reassign_true_refuted",
    "C53_reassign_false_refuted"
   ],
   "note": "False in general (two counterexamples); proved for reciprocal storage, and in full for the three other properties."
  },
  {
   "property": "C54",
   "status": "partial",
   "theorems": [
    "C54_second_direction",
    "C54_refuted"
   ],
   "note": "refuted: proved that the second direction, when it is no restart, always has a non-positive product with the gradient"
  },
  {
   "property": "C55",
   "status": "partial",
   "theorems": [
    "C55_axes",
    "C55_scale",
    "C55_pole_refuted"
   ],
   "note": "right-handed orthonormal always; third axis exactly the direction away from the poles and within the tolerance near them, where the exact claim is refuted"
  },
  {
   "property": "C56",
   "status": "proved",
   "theorems": [
    "C56_periodic"
   ],
   "note": "no hypothesis on the Hamiltonian"
  },
  {
   "property": "C57",
   "status": "proved",
   "theorems": [
    "C57_zero_mode"
   ],
   "note": ""
  },
  {
   "property": "C58",
   "status": "partial",
   "theorems": [
    "C58_semidefinite",
    "C58_fourth_attempt_useless",
    "C58_negative_semidefinite_refuted"
   ],
   "note": "positive semidefinite matrices proved; refuted for negative semidefinite ones, and the fourth attempt proved useless; the diagonalization is a parameter with a contract"
  },
  {
   "property": "C59",
   "status": "proved",
   "theorems": [
    "C59_independent",
    "C59_succeeds"
   ],
   "note": "success needs unshared parameter objects"
  },
  {
   "property": "C60",
   "status": "proved",
   "theorems": [
    "C60_named",
    "C60_unknown_name",
    "C60_one_factor",
    "C60_getter"
   ],
   "note": "ASCII names; other letters are outside the model"
  },
  {
   "property": "C61",
   "status": "partial",
   "theorems": [
    "C61_lines",
    "C61_energy_partial",
    "C61_onsite_refuted"
   ],
   "note": "Lines of the file exact (C61_lines). Energy: exchange exact, on-site off by the factor 1/4 in general (C61_energy_partial gives the exact value, C61_onsite_refuted a witness)."
  },
  {
   "property": "C62",
   "status": "partial",
   "theorems": [
    "C62_read_partial",
    "C62_all_or_nothing",
    "C62_frozen",
    "C62_c2_refuted",
    "C62_c2_default_refuted",
    "C62_spins_refuted",
    "C62_g_refuted"
   ],
   "note": "C62_read_partial: every setting except wolfe_c2, g_factors and spins reads back; C62_all_or_nothing and C62_frozen are complete. wolfe_c2 returns wolfe_c1 and the setters of g_factors and spins raise TypeError for every argument (refuted)."
  },
  {
   "property": "C63",
   "status": "partial",
   "theorems": [
    "C63_ferro_partial",
    "C63_antiferro_partial",
    "C63_spiral_partial",
    "C63_appended",
    "C63_append_refuted"
   ],
   "note": "New files for the three cases (partial: the digits are assumed to be one word; pieces of the history as received by the processor). A second run with the same file name is refuted (C63_append_refuted, C63_appended gives the number of lines)."
  },
  {
   "property": "C64",
   "status": "partial",
   "theorems": [
    "C64_summary_partial",
    "C64_antiferro",
    "C64_default_refuted",
    "C64_files",
    "C64_files_refuted"
   ],
   "note": "C64_summary_partial covers selections without the antiferromagnetic type; for the default selection the statement is refuted, and C64_antiferro says what is printed instead. The results of optimize and the reading of arguments are parameters of the model."
  },
  {
   "property": "C65",
   "status": "partial",
   "theorems": [
    "C65_format",
    "C65_text_partial",
    "C65_text_useless",
    "C65_spinless",
    "C65_hdf5_fails",
    "C65_hdf5_name",
    "C65_refuted"
   ],
   "note": "The statement is false for every TB2J file with atoms: C65_text_useless and C65_hdf5_fails; C65_text_partial, C65_format and C65_hdf5_name (files without atoms) are the parts that hold. Assumed: float rejects the word -, the printing of digits (record prints), and that magmom does not set the spin in wulfric."
  },
  {
   "property": "C66",
   "status": "proved",
   "theorems": [
    "C66_atoms",
    "C66_spins"
   ],
   "note": "Assumed of outside functions: records sane and geometry (float, wulfric relative coordinates, norm)."
  },
  {
   "property": "C67",
   "status": "proved",
   "theorems": [
    "C67_cone_vector",
    "C67_cone_angles",
    "C67_no_cone",
    "C67_spiral",
    "C67_no_spiral"
   ],
   "note": "Assumed of outside functions: records sane and geometry (float, norm, sine and cosine, reciprocal cell)."
  },
  {
   "property": "C68",
   "status": "proved",
   "theorems": [
    "C68_second_order",
    "C68_length"
   ],
   "note": "Conditions: reciprocal storage, symmetric on-site matrices (what add_on_site should guarantee, see C35), spins defined and equal to the lengths of the spin vectors. Within 1e-5 of the poles the expansion is about the pole (C55)."
  },
  {
   "property": "C69",
   "status": "partial",
   "theorems": [
    "C69_omegas",
    "C69_files",
    "C69_names",
    "C69_directory",
    "C69_parts",
    "C69_points_partial",
    "C69_points_refuted"
   ],
   "note": "Arrays, files, names: proved (assumed: printed numbers are single words, wulfric returns as many coordinates as points, the solver returns 2N energies). Additional points: proved up to the trailing arguments that are ignored; C69_points_refuted."
  },
  {
   "property": "C70",
   "status": "partial",
   "theorems": [
    "C70_comment",
    "C70_text_file",
    "C70_count",
    "C70_length",
    "C70_order_partial",
    "C70_order_refuted",
    "C70_false_refuted"
   ],
   "note": "Comment, count, length: proved. Order only for at most eight lines (C70_order_refuted); comment=False writes the word False (C70_false_refuted)."
  },
  {
   "property": "C71",
   "status": "proved",
   "theorems": [
    "C71_meaning",
    "C71_format",
    "C71_accepted",
    "C71_exchange_unit",
    "C71_on_site_unit",
    "C71_length_unit"
   ],
   "note": "All files: read-out (atom names distinct), format, acceptance, errors. Assumed: nonzero units, wulfric.absolute_to_relative is right; for acceptance also a vector of length zero is zero."
  },
  {
   "property": "C72",
   "status": "proved",
   "theorems": [
    "C72_same_model",
    "C72_notation"
   ],
   "note": "For Hamiltonians that both storage conventions describe (no self bonds; reciprocal storage) with nonzero spins and factors and distinct atom indices."
  },
  {
   "property": "C73",
   "status": "proved",
   "theorems": [
    "C73_matrix"
   ],
   "note": "Exact local axes are assumed: within numpy's tolerances of the poles the code treats a direction as the pole (C55)."
  },
  {
   "property": "C74",
   "status": "proved",
   "theorems": [
    "C74_energies"
   ],
   "note": "With distinct atom indices."
  },
  {
   "property": "C75",
   "status": "proved",
   "theorems": [
    "C75_spectrum",
    "C75_unique",
    "C75_failures",
    "C75_holes"
   ],
   "note": "Assumed: contracts of cholesky, eig and argsort (met by C75_case)."
  },
  {
   "property": "C76",
   "status": "proved",
   "theorems": [
    "C76_solver",
    "C76_axes",
    "C76_same_model",
    "C76_periodic",
    "C76_opposite"
   ],
   "note": "Assumed: contracts of cholesky, eig and argsort (met by C76_numpy), and the hypotheses of C72, C73, C56, C54."
  },
  {
   "property": "C77",
   "status": "proved",
   "theorems": [
    "C77_goldstone"
   ],
   "note": "Assumed: contracts of cholesky, eig and argsort. Exact arithmetic: the cut-off at 1e-8 meets the shift by 1e-8 exactly."
  },
  {
   "property": "C78",
   "status": "proved",
   "theorems": [
    "C78_one_atom",
    "C78_ferromagnet"
   ],
   "note": "Assumed: contracts of cholesky, eig and argsort; unshared parameter objects and reciprocal storage as in C68. Exact arithmetic."
  },
  {
   "property": "C79",
   "status": "proved",
   "theorems": [
    "C79_stable",
    "C79_unfrustrated"
   ],
   "note": "Assumed: contracts of cholesky, eig and argsort; the cell is not degenerate; spin directions not within the tolerance of a pole (or exactly there); unshared parameter objects and reciprocal storage as in C68. Exact arithmetic."
  },
  {
   "property": "C80",
   "status": "partial",
   "theorems": [
    "C80_convert",
    "C80_dispersion",
    "C80_minimize",
    "C80_call_values",
    "C80_call_missing",
    "C80_call_unknown",
    "C80_convert_call",
    "C80_dispersion_call",
    "C80_minimize_call_partial",
    "C80_minimize_call_refuted",
    "C80_selection",
    "C80_word",
    "C80_results",
    "C80_elsewhere",
    "C80_no_type",
    "C80_load_fails",
    "C80_results_refuted",
    "C80_main"
   ],
   "note": "Proved for all command lines; the equality with the call from Python fails for minimize_energy without a type, and results of earlier runs are lost on failure (both refuted with witnesses and characterised exactly). argparse itself is modelled on options already separated from their arguments."
  },
  {
   "property": "C81",
   "status": "proved",
   "theorems": [
    "C81_text_on_site",
    "C81_text_cell",
    "C81_hdf5",
    "C81_field"
   ],
   "note": "Literals of the source are taken as the decimal fractions they denote (no rounding). Exchange sections of text files are not converted at all, see C43."
  },
  {
   "property": "C82",
   "status": "proved",
   "theorems": [
    "C82_antiferromagnet"
   ],
   "note": "Assumed: contracts of cholesky, eig and argsort; unshared parameter objects and reciprocal storage as in C68. Exact arithmetic."
  },
  {
   "property": "C83",
   "status": "partial",
   "theorems": [
    "C83_verdict",
    "C83_reported",
    "C83_truth",
    "C83_says",
    "C83_decimal",
    "C83_lines",
    "C83_block_refuted",
    "C83_complete_refuted",
    "C83_duplicates_refuted",
    "C83_once_refuted"
   ],
   "note": "Proved: verdict, truth and line numbers of every message. False, with witnesses: block numbers on keyword lines, completeness, duplicate names, repetition. Levels info and warning are not modelled."
  },
  {
   "property": "C84",
   "status": "partial",
   "theorems": [
    "C84_copy",
    "C84_plain",
    "C84_directory",
    "C84_path",
    "C84_writable",
    "C84_lines",
    "C84_saving_refuted",
    "C84_missing"
   ],
   "note": "False in general: the copy of a file in another directory (C84_saving_refuted, C84_directory, C84_missing). Proved when the copy can be written. Not modelled: permissions, full disks, encoding errors."
  },
  {
   "property": "C85",
   "status": "proved",
   "theorems": [
    "C85_branches",
    "C85_easy_axis"
   ],
   "note": "Assumed: contracts of cholesky, eig and argsort; unshared parameter objects and reciprocal storage as in C68. Exact arithmetic."
  },
  {
   "property": "C86",
   "status": "partial",
   "theorems": [
    "C86_content",
    "C86_every",
    "C86_failure",
    "C86_files_partial",
    "C86_gap_refuted"
   ],
   "note": "Content and failures proved in full. Agreement of the two counts only without gaps (C86_files_partial; C86_gap_refuted). Element, initial direction and the constant lines of the .mat file are not modelled."
  },
  {
   "property": "C87",
   "status": "partial",
   "theorems": [
    "C87_reciprocal",
    "C87_reversed",
    "C87_about_axis",
    "C87_isotropic_antiferro",
    "C87_isotropic_zero",
    "C87_isotropic_rotation",
    "C87_zero_refuted"
   ],
   "note": "Spiral of zero vector and ferro: only with isotropic parameters (C87_isotropic_zero; C87_zero_refuted). The other claims are proved in full. Exact arithmetic."
  },
  {
   "property": "C88",
   "status": "proved",
   "theorems": [
    "C88_ferro",
    "C88_spiral",
    "C88_antiferro",
    "C88_field"
   ],
   "note": "Assumed: mirrored storage or unshared parameter objects, as in C23. Exact arithmetic."
  },
  {
   "property": "C89",
   "status": "proved",
   "theorems": [
    "C89_reversed",
    "C89_linear"
   ],
   "note": "Exact arithmetic."
  },
  {
   "property": "C90",
   "status": "proved",
   "theorems": [
    "C90_collinear"
   ],
   "note": "Assumed: mirrored storage or unshared parameter objects, as in C23. Exact arithmetic."
  },
  {
   "property": "C91",
   "status": "proved",
   "theorems": [
    "C91_scaled",
    "C91_magnons"
   ],
   "note": "Assumed: mirrored storage or unshared parameter objects, atoms with different indices, as in C72 and C74. Exact arithmetic."
  }
 ]
}