# Formal model of magnopy in Rocq/Coq 8.16.1 — design

The code is read as text from /repo and never run. Every model definition cites
the file and lines it mirrors. Theorems are about the model; the tie to the code
is the reading recorded in those citations.

## Layout of rocq/theories

| file group | contents |
| --- | --- |
| `Base/` | scalar class (field with decidable equality; instances `Qc` and `R`), 3-vectors and 3x3 matrices, insertion ordered dictionaries, the exception/state monad |
| `Model/` | definitions only, one file per Python module, mirrored function by function |
| `Spec/` | small independent specifications (classical energy, abstract maps, lattice averages, ...) |
| `Proofs/` | lemmas |
| `Properties/` | one file per group of properties: only `Theorem ... exact lemma.`, `Print Assumptions`, and non-vacuity `Example`s |

## Modelling choices

* **Numbers.** Exact field arithmetic instead of IEEE doubles. The Hamiltonian and
  I/O models are written over an arbitrary field with decidable equality (class
  `Scalar`), instantiated with canonical rationals `Qc` for executable witnesses and
  with `R` for energies. Rounding, overflow, `inf` and `nan` are outside the model;
  a division that would produce them is an explicit error outcome, never a
  totalised value used silently.
* **Objects and aliasing.** `MatrixParameter` instances are mutable and can be shared
  (`Energy` keeps references). The Hamiltonian model therefore keeps an explicit heap:
  dictionaries map keys to locations, a store maps locations to matrices.
* **Exceptions.** Every operation is a state transformer returning either a value or an
  exception *together with the state at the time of the exception*, so that partial
  updates are visible.
* **Dictionaries** are insertion ordered association lists with Python's
  overwrite-in-place semantics. Iteration order of Python *sets* is arbitrary: theorems
  quantify over all permutations.
* **wulfric** (`Atom`, `Crystal`) is not available. Atoms are modelled by name and index
  (their Python equality), with an optional spin; `get_atom` finds an atom by name and
  raises `ValueError` otherwise. Distances are an arbitrary function of the bond.
* **numpy/scipy** `cholesky`, `eig`, `inv` are section variables with their mathematical
  contract as explicit hypotheses of the theorems that use them.

## Plan per property

| id | model and proof |
| --- | --- |
| C01-C05 | `Model/MatrixParam.v` over any field of characteristic not 2 or 3; ring/field proofs |
| C06-C10 | `Model/Hamiltonian.v`; classical energy in `Spec/`; sums over dictionaries; refutations by computation over `Qc` |
| C11-C19 | invariants and refinement over operation histories on the heap model; arbitrary permutations for set iteration |
| C20-C23 | `exchange_like`, `Energy.__init__` with aliasing on the same heap model |
| C24-C26 | `Model/Energy.v` over `R`; averages over phases as specification |
| C27-C34 | update functions, gradient layout, line search and optimizer loop over `R`, with arbitrary energy functions where the code is generic |
| C35-C36 | `Model/Dispersion.v`, complex numbers as pairs of reals, N by N matrices as functions |
| C37 | mathcomp matrices of arbitrary size over a numeric closed field; Cholesky and eigen decomposition assumed by contract |
| C38 | decision tree with an arbitrary outcome for each attempt |
| C39-C46, C51 | strings as lists of characters; lines and words; sections |
| C46-C50 | abstract HDF5 store as a name-keyed tree; crash points as prefixes of the write sequence |
| C52 | over `R` |
| C53-C60 | same models, further consequences: reassigning a notation, later search directions, local axes, periodicity and zero modes of the magnon matrix, semidefinite matrices, independence of dispersion and Hamiltonian, notations by name |
| C61 | `Model/Vampire.v`: lines of the file and the energy Vampire computes from them |
| C62-C63 | `Model/Settings.v`, `Model/HistoryText.v`: properties of `Energy`, text of the history file |
| C64-C65 | `Model/Minimize.v`, `Model/Convert.v`: the command line scripts |
| C66-C67 | `Model/TxtRead.v` against `Spec/AtomsSpec.v`: atoms, cone axis, spiral vector of a text file |
| C68 | `Model/Dispersion.v` against the energy of `Spec/HamSpec.v`: h(k) is the second-order term of the classical energy of a spin wave |
| C69 | `Model/DispersionScript.v` (omegas, posix paths, table) against the cells of `Spec/ScriptSpec.v` |
| C70 | `Model/Logo.v` (texts as code points) against the lines of `Spec/LogoSpec.v` |
| C71 | `Model/Hdf5.v` (load) against the description of a group in `Spec/Hdf5Units.v`, for arbitrary trees |
| C72 | `Model/Dispersion.v` on two Hamiltonians at once; same model of spins in `Spec/InvarianceSpec.v` |
| C73 | `Model/Dispersion.v` on two Hamiltonians at once; rotations and isometries in `Spec/RotationSpec.v` |
| C74 | `Model/Energy.v`, `Model/EnergyInit.v` likewise |
| C75 | `Model/Colpa.v` against the characteristic polynomial of g D |
| C76-C77 | `Model/Dispersion.v` and `Model/Colpa.v` joined by `Model/Solver.v` (numpy as a record of functions with contracts): the returned energies |
| C78 | the same, with `Spec/TextbookSpec.v` (closed formulas): energies of one magnetic atom, isotropic ferromagnets |
| C79 | `Spec/StableSpec.v` (local minimum of the classical energy in every supercell) against `omega`: waves commensurate with a supercell, then the limit over wave vectors |
| C80 | `Spec/CommandLineSpec.v` (what a command line asks for) against the tables of options, `manager(**vars(args))` and the Python call |
| C81 | `Spec/PhysicsSpec.v` (CODATA sizes in decimal digits) against the constants and what C43, C45 and C71 say about loading |
| C82 | `Spec/SublatticeSpec.v` (sublattice energies, structure factor and branches as sums over the stored parameters); the 4 x 4 matrix is identified by its quadratic form (C68), its characteristic polynomial factorizes, the spectrum follows from C75 |
| C83 | `Model/VerifyLog.v` repeats the checks with line numbers and messages; `Spec/VerifyLogSpec.v` says for each kind of message what must hold of the file (`tells_truth`); invariant: errors iff messages, all true |
| C84 | `Model/SaveFiltered.v`: text mode, `readlines`, a disk; the copy shows the same texts (`file_shows`), hence loads alike |
| C85 | `Spec/ParallelSpec.v` (two roots), sums of `Spec/SublatticeSpec.v`; as C82, the matrix has two hopping blocks; positivity at every k from a bound on the structure factor |
| C86 | `Model/Vampire.v` (`dump_mat`), `Spec/MatSpec.v`: first atoms of the materials, announced number |
| C87 | `Model/Energy.v`, `Model/EnergyInit.v`; `Spec/ConeSpec.v`: isotropic parameters; equalities between energies of equivalent arguments |
| C88 | `Model/Energy.v`, `Model/EnergyInit.v`; `Spec/EasyAxisSpec.v`; each bond bounded from below for all directions, cone states through their averages over phases |
| C89 | `Model/Energy.v`; `Spec/ReversalSpec.v`: reversed arguments, linear functions of the field |
| C90 | `Spec/CollinearSpec.v`: two sublattices; as C88 with the sign of each spin |
| C91 | `Spec/ScaleSpec.v`: two Hamiltonians with proportional parameters or couplings; compare the lists of parameters built by the constructors as in C74 and C72 |

Where a full claim is false of the code it stays in `properties.jsonl`; the section
"Findings" below lists it, and the files hold a `..._refuted` witness together with the
`..._partial` theorem for the domain in which the claim does hold.

## Trusted base

1. **Coq 8.16.1's kernel** (with its virtual machine, used by `vm_compute`) and the
   compiler it was built with. No kernel check is switched off, no plugin is loaded
   besides those of the standard distribution and of mathcomp/Coquelicot.
2. **Axioms.** No axiom is added. What `Print Assumptions` lists for each theorem is in
   the section "Print Assumptions" below; all of it comes from the standard library's
   real numbers (`ClassicalDedekindReals`, functional extensionality) and from
   `Classical_Prop.classic` (used by Coquelicot's and the standard library's analysis).
   Some `Example`s on the reals also use
   `Description.constructive_definite_description`. `Base/RealField.v` makes the
   standard library's reals a field of Mathematical Components and needs
   `Epsilon.epsilon_statement` for its choice operator (C76-C79, and the existence of
   routines that meet the contracts).
3. **The reading of the code.** That the definitions in `Model/` do what the cited lines
   of Python do. Nothing checks this mechanically; the definitions follow the functions
   branch by branch, with exceptions as values.
4. **Assumptions on functions outside magnopy.** They are hypotheses of the theorems
   (records in `Spec/`), never axioms, and each is shown to be satisfiable by an
   instance over the rationals:
   * `sane` (`Spec/TxtFormat.v`): `float`, `int`, `numpy.linalg.norm`, `numpy.allclose`
     and the unit constants as far as the text reader needs them; instance `QX_sane`.
   * `geometry` (`Spec/AtomsSpec.v`): relative coordinates, norm, sine and cosine,
     reciprocal cell; instance `QX_geometry`.
   * `prints` (`Spec/TxtDumpSpec.v`): a number printed with a fixed number of digits is
     one word and is read back as the rounded number; the comment block of the logo
     (`_pinfo.py`) consists of lines that start with `#`; instance `QY_prints`.
   * `units_defined`: the unit constants are not zero.
   * Contracts of Cholesky and of the eigen solver for C37/C38/C58; `numpy_works`
     (`Spec/OmegaSpec.v`) for C76-C79, proved satisfiable for all sizes (`numpy_exists`).
   * wulfric: `get_atom` by name finds the only atom of that name, `add_atom` numbers
     the atoms from 1, `"__"` in a name separates name and index, `magmom` does not set
     `spin`, atoms are equal when name and index are. h5py: the members of a group are
     listed in the order of their names.

## What is modelled

| module | modelled | not modelled |
| --- | --- | --- |
| `spinham/parameter.py` | constructor, all getters and setters, `T`, `+ - * / // % @ == abs neg pos`, in-place semantics | `__format__`, `__str__`, `__repr__`, `__array_interface__`, `rel_dmi` beyond its quotient |
| `spinham/hamiltonian.py` | everything (`Hamiltonian.v`, `History.v`, `GroundState.v`), including iterators, `copy`, `filter`, notation by name, magnetic atoms | the crystal itself (wulfric): only atoms, spins, positions as data |
| `spinham/energy.py` | constructor, `ferro`, `antiferro`, `spiral`, gradients, updates, starting points, search direction, line search, `optimize`, history processors, all properties | floating point; `scipy`-free already; random starting points are arbitrary values |
| `magnons/dispersion.py` | constructor, `h`, `J`, `A`, `B`, `C`, `omega` with all fallbacks, `omegas`, `span_orthonormal_set` | warnings |
| `magnons/diagonalization.py` | `solve_via_colpa` over any numeric closed field, any size | failures of LAPACK other than "not positive definite" |
| `io/txt/verify.py` | every check, for accepted and refused files, with the text and line numbers of the messages of level error | messages of levels info and warning |
| `io/txt/internal.py` | `_filter_txt_file`, all readers, `load_spinham_txt`, `dump_spinham_txt` | `verbose`; for `save_filtered` (`SaveFiltered.v`): permissions, encoding |
| `io/txt/tb2j.py` | `load_tb2j` | printing, `bravais_type` (passed to wulfric) |
| `io/txt/vampire.py` | `dump_vampire`, `dump_mat`, `dump_ucf` with the notation changes | exact digits (numbers are written by an abstract printer); element, initial direction and constant lines of the .mat file |
| `io/hdf5/internal.py` | load and dump as a sequence of operations on a tree of groups, attributes and datasets, with every exception | the storage layer below h5py |
| `io/__init__.py` | `load_spinham` | |
| `score/minimize_energy.py`, `score/convert_tb2j.py` | `manager` and the three `_minimize_...` functions, options and calls of all three scripts (`CommandLine.v`) | argparse: abbreviations, `--name=value`, the separation of words into options and arguments |
| `score/magnon_dispersion.py` | file names, additional points, the table and its header (`DispersionScript.v`) | plotting, k-path of wulfric, terminal output, the text above the table |
| `_pinfo.py` | `logo` for given information (`Logo.v`) | version and date in the default information, licence text |
| `__main__.py` | which text is printed (`CommandLine.v`) | the texts |
| `units/` | all constants, as exact decimals (`Constants.v`); parameters elsewhere | rounding to doubles |
| `_osfix.py`, `exceptions.py` | | waiting for a key, texts |
| `geometry.py` | `vector_to_angles` (raises always) | |

## Findings

Claims a user would expect that are false of the code at the pinned commit; each has
a theorem with a witness (or holds for all inputs, where it says "always").

**Parameters and Hamiltonian**
* Assigning `aniso` an array that is not symmetric and traceless does not read back (C03).
* Switching `double_counting` changes the energy when mirrored bonds carry unrelated
  matrices, when a bond connects an atom with itself in the same cell, or when both
  directions are stored without double counting (C08); assigning the value it already has
  can change parameters (C53).
* A failing setter can leave the Hamiltonian changed: missing spin, backward bond,
  notation half done (C10).
* Overwriting a bond or changing a matrix in place breaks the mirror symmetry under
  double counting (C12). `_ensure_no_double_counting` loses self-bonds (C13).
* `remove_atom` always raises `KeyError` for an atom with a bond to another atom under
  double counting (C15); removing by name never works (C16).
* `exchange_like` scales on-site parameters by the inverse of the right factor (C20), so
  the on-site energy in a Vampire file is off by 1/4 in general (C61).
**Energy and optimisation**
* `Energy(spinham)` can leave double counting switched on when it raises, changes the
  energy when both directions are stored, and shares parameter objects with the
  Hamiltonian without double counting (C21, C22); its energy is the classical one only for
  one choice of notation (C23).
* Field terms of `antiferro` and `spiral` differ from the claim (C26). The q part of the
  spiral gradient ascends with slope |g|^2 (C28); the cone torque overwrites the torque of
  the last spin and the axis never moves (C30).
* An accepted step may raise the energy with default settings (C33); the history is lost at
  `max_iterations` (C34); the first L-BFGS loop is empty and later directions are not
  descent directions (C54). Non-positive tolerances return the initial guess (C31).
* `wolfe_c2` reads `wolfe_c1`; `g_factors` and `spins` cannot be assigned (C62). The history
  file is opened for appending and a second run continues its last line (C63).
* The minimization script fails with its default selection, prints energies of other types
  as antiferromagnetic ones, and 26 runs share three history files (C64). Called from Python
  without `ground_state_type` (its default is None) `manager` always raises; a type given as a
  plain word is taken letter by letter and nothing is minimized; `<seedname>-results` is emptied
  before anything can fail, so that earlier results are lost (C80). The option of the field is
  spelled `--magnetic_field`, all others with dashes.
* `geometry.vector_to_angles` always raises (`np.linalg.notm`, `in_degreees`).
**Magnons**
* `eig` instead of `eigh`: repeated energies may come with non-orthogonal eigenvectors
  (C37). With `return_G` the length of the answer differs when every attempt fails, and
  tiny real parts of complex energies survive (C38). The fourth attempt of `omega` can
  never succeed where the third failed (C58). Spins within the tolerance of +-z are snapped
  to the axis (C55). On-site matrices that are not symmetric give a matrix that is not
  Hermitian (C35).
**Files**
* Accepted text files that fail to load: parameters without a notation, spin "-", joule in
  the exchange section (C41). Short atom lines raise `IndexError` in the verification.
  "relative" is refused in the header of the atoms section although the reader supports it.
* `_read_bond` ignores the declared units (C43) and stores the bond after every data line, so
  that the mirror is the transpose of the first line only (C44). A negative scale is not a
  volume: the cube root is missing (C45). Unknown booleans are read as False.
* The text dump loses or changes: the spiral vector (relative/absolute), self-bonds,
  antisymmetric on-site parts, g-factors and charges; files without data or with equal names
  are refused by the loader; `write_spin_angles` raises always (C42).
* HDF5: the order of atoms is lost from ten atoms on, equal names cannot be read (C46); a
  failing overwrite has already deleted the old group, and after `NotationError` the rest
  loads silently without parameters (C47); `index+1` on a string raises `TypeError`, unknown
  cell units raise `KeyError` while formatting the message.
* Vampire: after an exception the Hamiltonian stays in the Vampire notation; a mask receives
  the parameter's own array (C49).
* `dump_vampire(materials=[0, 2])`: the .UCF file announces 2 materials (`len(np.unique(materials))`), the .mat file 3
  (`max(materials) + 1`) with descriptions of materials 1 and 3 only (C86). Atoms of one material share the spin of the first.
* `spiral` with the zero vector is not `ferro` unless the parameters are isotropic: the average over the cone is taken although
  all cells are alike (C87). A spin along its easy axis x with the cone axis z gets half of its anisotropy energy.
* TB2J: `IndexError` when the file ends with the separator; a blank line after the atoms
  silently drops all exchange. Converted files can never be loaded (text) or are never
  written (HDF5), because the atoms have no spin (C65).
* The dispersion script ignores up to four trailing arguments of `--k-points` (C69). The logo
  prints the last lines of a long information first, and `comment=False` as the word
  "False" before every line (C70).
- HDF5, unknown unit of the lattice: the log message asks for `cell['units']` (a member, not the attribute), so
  the call ends with KeyError; if such a member exists, with UnboundLocalError in the next line (C71_length_unit).
- Messages of the verifier (C83). On lines with a keyword the block number in "expected a number" is counted without the keyword, so it is one
  less than the position of the word on the line (`C83_block_refuted`). Checks are skipped once an error was found (`errors or ...`), so one
  run does not report all faults (`C83_complete_refuted`). A file without a name column is told to have "duplicates", 0 unique names
  (`C83_duplicates_refuted`). The message on the size of the atoms section is logged twice (`C83_once_refuted`). The messages on scales and on empty
  exchange and on-site sections name no line. The message on a wrong keyword cannot occur.
- `save_filtered` puts `filtered_` before the whole path: for `run/model.txt` the copy goes to `filtered_run/model.txt`, so the call fails
  unless that directory exists; with an absolute path it is `filtered_/...` (C84).

## Print Assumptions

* **no axioms ("Closed under the global context")** (244 theorems): C66_atoms, C66_spins, C67_cone_vector, C67_cone_angles, C67_no_cone, C67_spiral, C67_no_spiral, C37_diagonalizes_partial, C37_energies, C37_modes, C37_failed, C37_refuted, C80_convert, C80_dispersion, C80_minimize, C80_call_values, C80_call_missing, C80_call_unknown, C80_convert_call, C80_dispersion_call, C80_minimize_call_partial, C80_minimize_call_refuted, C80_selection, C80_word, C80_results, C80_elsewhere, C80_no_type, C80_load_fails, C80_results_refuted, C80_main, C65_format, C65_text_partial, C65_text_useless, C65_spinless, C65_hdf5_fails, C65_hdf5_name, C65_refuted, C48_loader, C48_unambiguous, C48_refuses, C21_double_counting, C21_no_double_counting_partial, C21_raises_refuted, C21_energy_refuted, C52_spiral, C46_round_trip, C46_small, C46_order_lost, C46_order_refuted, C46_same_name_refuted, C46_succeeds, C46_found, C46_ambiguous, C47_refuted, C47_silent_refuted, C47_lost, C47_elsewhere, C47_no_overwrite, C47_complete, C71_meaning, C71_format, C71_accepted, C71_exchange_unit, C71_on_site_unit, C71_length_unit, C11_mirrors_together, C11_reachable_sane, C12_transposed_partial, C12_overwrite_refuted, C12_in_place_refuted, C13_canonical, C13_complete_partial, C13_self_bond_lost_refuted, C14_add_exchange, C14_add_exchange_keywords, C14_add_exchange_succeeds, C14_remove_exchange, C14_remove_exchange_reject, C14_membership, C14_membership_on_site, C14_add_on_site, C15_remove_atom_exact, C15_remove_atom_succeeds_partial, C15_double_counting_fails, C15_remove_atom_refuted, C16_remove_by_object_partial, C16_remove_present, C16_remove_by_name_never_works, C16_remove_by_name_refuted, C17_filter_exact, C17_filter_idempotent, C17_filter_order, C18_copy_independent, C18_filtered, C19_magnetic_atoms, C20_listing, C20_energy_partial, C20_energy_refuted, C63_appended, C70_comment, C70_text_file, C70_count, C70_length, C70_order_partial, C70_order_refuted, C70_false_refuted, C86_content, C86_every, C86_failure, C86_files_partial, C86_gap_refuted, C64_summary_partial, C64_antiferro, C64_default_refuted, C64_files, C64_files_refuted, C06_first_interpretation, C06_first_double_counting, C07_exchange_factor, C07_on_site_factor, C07_spin_normalized, C07_shared_object_refuted, C08_switch_off_partial, C08_switch_on_partial, C08_notation_partial, C08_unequal_mirrors_refuted, C08_self_bond_refuted, C08_both_directions_refuted, C09_round_trip, C09_path_independent, C10_unknown_notation_partial, C10_exchange_factor_partial, C10_on_site_factor_partial, C10_spin_normalized_partial, C10_double_counting_partial, C10_missing_spin_refuted, C10_backward_bond_refuted, C10_notation_half_done_refuted, C53_reassign_notation_partial, C53_reassign_simple, C53_reassign_true_refuted, C53_reassign_false_refuted, C60_named, C60_unknown_name, C60_one_factor, C60_getter, C01_decomposition, C01_decomposition_unique, C02_set_iso, C02_set_dmi, C03_set_aniso_partial, C03_set_aniso_refuted, C04_constructor, C05_transpose, C05_arithmetic, C84_copy, C84_plain, C84_directory, C84_path, C84_writable, C84_lines, C84_saving_refuted, C84_missing, C69_names, C69_directory, C69_parts, C69_points_partial, C69_points_refuted, C62_read_partial, C62_all_or_nothing, C62_frozen, C62_c2_refuted, C62_c2_default_refuted, C62_spins_refuted, C62_g_refuted, C75_spectrum, C75_unique, C75_failures, C75_holes, C50_loads, C50_frame, C50_entry, C50_unique, C50_mirror, C50_nothing_else, C50_trailing_separator, C50_blank_after_atoms, C39_same, C39_line_numbers, C40_order, C41_loads_partial, C41_notation_refuted, C41_spin_refuted, C41_joule_refuted, C43_on_site, C43_exchange_partial, C43_exchange_exact, C43_exchange_refuted, C44_mirror_partial, C44_mirror_exact, C44_mirror_refuted, C45_positive, C45_negative_exact, C45_negative_refuted, C51_words, C51_unambiguous, C51_letter_case, C51_value, C51_loaded, C42_partial, C42_near_partial, C42_written, C42_spiral_refuted, C42_self_bond_refuted, C42_only_self_bonds_refuted, C42_antisymmetric_refuted, C42_spinless_refuted, C42_nothing_written_refuted, C42_same_names_refuted, C81_text_on_site, C81_text_cell, C81_hdf5, C49_ucf_partial, C49_vampire_partial, C49_succeeds, C49_failure, C49_vampire_failure, C49_unset_notation, C49_mat, C49_short_materials_refuted, C49_writing_mask_refuted, C61_lines, C61_energy_partial, C61_onsite_refuted, C83_verdict, C83_reported, C83_truth, C83_says, C83_decimal, C83_lines, C83_block_refuted, C83_complete_refuted, C83_duplicates_refuted, C83_once_refuted.
* **`ClassicalDedekindReals.sig_forall_dec`, `ClassicalDedekindReals.sig_not_dec`, `Classical_Prop.classic`, `FunctionalExtensionality.functional_extensionality_dep`** (27 theorems): C90_collinear, C35_hermitian, C35_refuted, C36_particle_hole, C55_axes, C55_scale, C55_pole_refuted, C56_periodic, C57_zero_mode, C59_independent, C59_succeeds, C88_spiral, C25_spiral, C26_spiral_field, C26_spiral_refuted, C72_same_model, C72_notation, C28_spins_partial, C28_derivative, C28_q_ascends, C28_q_refuted, C29_derivative, C33_refuted, C34_refuted, C73_matrix, C91_magnons, C68_second_order.
* **`ClassicalDedekindReals.sig_forall_dec`, `ClassicalDedekindReals.sig_not_dec`, `FunctionalExtensionality.functional_extensionality_dep`** (65 theorems): C87_reciprocal, C87_reversed, C87_about_axis, C87_isotropic_antiferro, C87_isotropic_zero, C87_isotropic_rotation, C87_zero_refuted, C38_count, C38_values, C38_count_return_G, C38_return_G_refuted, C38_tiny_refuted, C58_semidefinite, C58_negative_semidefinite_refuted, C88_ferro, C88_antiferro, C88_field, C22_double_counting_partial, C22_shared_refuted, C23_value, C23_classical_partial, C23_classical_refuted, C24_ferro, C24_ferro_one_spin, C24_antiferro, C24_antiferro_one_spin, C24_spiral, C24_spiral_one_spin, C25_antiferro, C25_total, C26_antiferro_field, C26_antiferro_refuted, C52_accepts, C52_unit, C52_rejected, C52_always, C63_ferro_partial, C63_antiferro_partial, C63_spiral_partial, C27_ferro_step, C27_ferro_step_defined, C27_antiferro_step, C27_antiferro_step_defined, C27_spiral_step, C27_spiral_step_defined, C27_ferro_run, C27_antiferro_run, C27_spiral_run, C28_energy, C28_q_moves, C30_layout_refuted, C30_axis_never_moves, C31_stops, C31_ends, C34_unlimited_partial, C34_written, C54_second_direction, C54_refuted, C89_reversed, C89_linear, C74_energies, C91_scaled, C69_omegas, C69_files, C68_length.
* **`ClassicalDedekindReals.sig_forall_dec`, `FunctionalExtensionality.functional_extensionality_dep`** (9 theorems): C58_fourth_attempt_useless, C63_append_refuted, C29_layout, C30_layout, C32_found, C32_not_found, C33_bound_partial, C79_unfrustrated, C81_field.
* **`ClassicalDedekindReals.sig_forall_dec`, `ClassicalDedekindReals.sig_not_dec`, `Classical_Prop.classic`, `Epsilon.epsilon_statement`, `FunctionalExtensionality.functional_extensionality_dep`** (11 theorems): C78_one_atom, C78_ferromagnet, C76_axes, C76_same_model, C76_periodic, C76_opposite, C77_goldstone, C85_branches, C85_easy_axis, C79_stable, C82_antiferromagnet.
* **`ClassicalDedekindReals.sig_forall_dec`, `ClassicalDedekindReals.sig_not_dec`, `Epsilon.epsilon_statement`, `FunctionalExtensionality.functional_extensionality_dep`** (1 theorems): C76_solver.
