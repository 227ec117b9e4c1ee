{"id": "C01", "title": "Matricial (Kelvin) form round trip of second-order tensors", "statement": "Converting a symmetric second-order tensor to its matricial form and back returns the same tensor, and converting any matricial form to a tensor and back returns the same matricial form; the tensor built from a symmetric storage order is symmetric. With a full (non-symmetric) storage order the round trip holds for every tensor, symmetric or not.", "quantifier": "every spatial dimension, every admissible component order (any permutation, either representative of each off-diagonal pair), every real tensor / matricial form", "why_tests_cant": "orders and component values form an infinite family; a test fixes a handful of tensors and the two default orders", "anchors": ["src/hookeai/simulators/fetorch/math/matrixops.py: get_tensor_mf, get_tensor_from_mf, vget_tensor_mf, vget_tensor_from_mf"]}
{"id": "C02", "title": "Matricial form is an isometry and a homomorphism", "statement": "The dot product of two matricial forms equals the double contraction of the tensors they store, and multiplying the matricial form of a fourth-order tensor with minor symmetries by the matricial form of a symmetric tensor gives the matricial form of the tensor double contraction; likewise for products of two fourth-order tensors.", "quantifier": "every dimension, admissible symmetric component order and all real tensors", "why_tests_cant": "an equality of real polynomials over all components; the wrong sqrt(2) factor can cancel on sampled diagonal inputs", "anchors": ["src/hookeai/simulators/fetorch/math/matrixops.py: get_tensor_mf, vget_tensor_mf", "src/hookeai/simulators/fetorch/math/tensorops.py: ddot22_1, ddot42_1, ddot44_1"]}
{"id": "C03", "title": "Vectorised and loop tensor/matrix conversions agree", "statement": "The vectorised (vmap-compatible) conversion routines return the same results as the loop-based routines they replace on every input the latter accept.", "quantifier": "every dimension, accepted component order, Kelvin flag and real input", "why_tests_cant": "agreement must hold for all orders and flags; the two disagree exactly on a flag value (Kelvin off with symmetric order) that tests do not combine", "anchors": ["src/hookeai/simulators/fetorch/math/matrixops.py: get_tensor_mf/vget_tensor_mf, get_tensor_from_mf/vget_tensor_from_mf, get_state_3Dmf_from_2Dmf/vget_state_3Dmf_from_2Dmf, get_state_2Dmf_from_3Dmf/vget_state_2Dmf_from_3Dmf"]}
{"id": "C04", "title": "Plane problem 2D/3D state conversions are inverse and consistent with tensor embedding", "statement": "Expanding a 2D strain/stress matricial form to 3D with an out-of-plane component and reducing it again returns the original; the expansion is the matricial form of the block-diagonal 3D tensor, and reducing is the matricial form of the in-plane block.", "quantifier": "every 2D state (symmetric or not), every out-of-plane value", "why_tests_cant": "holds for all real components; tests sample a few", "anchors": ["src/hookeai/simulators/fetorch/math/matrixops.py: get_state_3Dmf_from_2Dmf, vget_state_3Dmf_from_2Dmf, get_state_2Dmf_from_3Dmf, vget_state_2Dmf_from_3Dmf"]}
{"id": "C05", "title": "Voigt notation is work-conjugate", "statement": "For every symmetric strain and stress, the dot product of the Voigt stress vector with the Voigt strain vector equals the double contraction of the tensors; the tensor rebuilt from a Voigt strain vector is symmetric and has that Voigt vector.", "quantifier": "every dimension, admissible symmetric component order, all real components", "why_tests_cant": "off-diagonal factor 2 errors vanish on sampled diagonal states", "anchors": ["src/hookeai/simulators/fetorch/math/voigt_notation.py: get_strain_from_vmf, vget_strain_from_vmf, get_stress_vmf, vget_stress_vmf"]}
{"id": "C06", "title": "Identity and projection operators do what their names say", "statement": "Double-contracting with the identity, transposition, symmetric-projection and diagonal-trace operators gives A, A^T, sym A and tr(A) I; in 3D the deviatoric projections yield trace-free tensors, are idempotent and, with the volumetric part, sum to the (symmetric) identity.", "quantifier": "every dimension and every real second-order tensor", "why_tests_cant": "linear operators over all tensors; the hard-coded 1/3 fails only outside 3D", "anchors": ["src/hookeai/simulators/fetorch/math/tensorops.py: get_id_operators", "src/hookeai/simulators/fetorch/math/voigt_notation.py: get_projection_tensors_vmf"]}
{"id": "C07", "title": "Shape functions interpolate: partition of unity, nodal delta, linear completeness", "statement": "For each finite element type the shape functions sum to one at every local point, are one at their own node and zero at the others, and reproduce the local coordinates from the nodal ones.", "quantifier": "every element type and every real local coordinate", "why_tests_cant": "polynomial identities over a continuum of points", "anchors": ["src/hookeai/simulators/fetorch/element/type/*.py: eval_shapefun, nodes local coordinates"]}
{"id": "C08", "title": "Shape function derivatives are the derivatives of the shape functions", "statement": "The returned local derivatives are the true partial derivatives of the returned shape functions, at every local point and for every node and direction.", "quantifier": "every element type, node, direction and local coordinate", "why_tests_cant": "a limit statement at every point of a continuum; finite differences on samples cannot settle it", "anchors": ["src/hookeai/simulators/fetorch/element/type/*.py: eval_shapefun, eval_shapefun_local_deriv"]}
{"id": "C09", "title": "Gauss quadrature exactness", "statement": "The returned weights sum to the reference element measure and the rule integrates exactly every polynomial up to its nominal degree.", "quantifier": "every available rule (domain and number of points) and every polynomial of the stated degree", "why_tests_cant": "all polynomials of the space, i.e. all real coefficient vectors", "anchors": ["src/hookeai/simulators/fetorch/element/type/quadratures.py: gauss_quadrature, gauss_quadrature_1d/2d/3d"]}
{"id": "C10", "title": "Patch test: linear displacement fields give the exact constant gradient", "statement": "For any element geometry with non-singular Jacobian, nodal displacements sampled from an affine field give, at every local point, exactly the strain of that affine field; rigid translations and infinitesimal rigid rotations give zero strain.", "quantifier": "every element type, node coordinates with invertible Jacobian, affine field and local point", "why_tests_cant": "quantifies over all geometries and fields", "anchors": ["src/hookeai/simulators/fetorch/element/derivatives/gradients.py: eval_shapefun_deriv, build_discrete_sym_gradient, vbuild_discrete_sym_gradient", "src/hookeai/simulators/fetorch/element/derivatives/jacobian.py: eval_jacobian", "src/hookeai/simulators/fetorch/element/integrations/internal_forces.py: compute_infinitesimal_strain"]}
{"id": "C11", "title": "Vectorised and loop discrete gradient operators agree", "statement": "The vectorised discrete (symmetric) gradient operators equal the loop-built ones for all shape function derivatives.", "quantifier": "every number of nodes, dimension 2 or 3, component order and derivatives", "why_tests_cant": "all sizes and component orders", "anchors": ["src/hookeai/simulators/fetorch/element/derivatives/gradients.py: build_discrete_sym_gradient, vbuild_discrete_sym_gradient, build_discrete_gradient, vbuild_discrete_gradient"]}
{"id": "C12", "title": "Element internal forces: virtual work and self-equilibrium", "statement": "The work of the element internal forces on any nodal displacement equals the quadrature of stress power density; the nodal forces of an element sum to zero for every stress field, and their moment about any point is zero when the stresses are symmetric.", "quantifier": "every element geometry, stress state at each Gauss point and displacement", "why_tests_cant": "universally quantified over continuous data", "anchors": ["src/hookeai/simulators/fetorch/element/integrations/internal_forces.py: compute_element_internal_forces"]}
{"id": "C13", "title": "Element assembly conserves forces and is adjoint to extraction", "statement": "Assembling element vectors into the mesh and extracting element vectors from the mesh are adjoint: the mesh inner product of the assembled array with any nodal field equals the sum over elements of the element inner products; each mesh degree of freedom is exactly the sum of the contributions of the elements containing it, and untouched nodes stay zero.", "quantifier": "every mesh (any number of nodes/elements, repeated nodes, any connectivity in range) and all element arrays", "why_tests_cant": "arbitrary connectivities", "anchors": ["src/hookeai/simulators/fetorch/structure/structure_mesh.py: element_assembler, element_assembler_1d, element_extractor, build_element_mesh_indexing, build_elements_mesh_indexing"]}
{"id": "C14", "title": "Vectorised assembly equals loop assembly", "statement": "The vectorised internal forces assembly used by the vmap forward mode returns the same mesh array as the sequential element assembler.", "quantifier": "every mesh, connectivity and element forces", "why_tests_cant": "arbitrary connectivities and sizes", "anchors": ["src/hookeai/material_model_finder/model/material_discovery.py: vassemble_internal_forces", "src/hookeai/simulators/fetorch/structure/structure_mesh.py: element_assembler"]}
{"id": "C15", "title": "Force equilibrium loss is non-negative and zero exactly at equilibrium", "statement": "The force-equilibrium loss is never negative and vanishes if and only if every free degree of freedom is in equilibrium and every prescribed degree of freedom's internal force matches the measured reaction.", "quantifier": "every mesh, force arrays, boundary condition codes and history length", "why_tests_cant": "iff over all real arrays", "anchors": ["src/hookeai/material_model_finder/model/material_discovery.py: force_equilibrium_loss, vforce_equilibrium_loss, vforce_equilibrium_hist_loss"]}
{"id": "C16", "title": "Vectorised force equilibrium loss equals the loop loss", "statement": "The vectorised pointwise loss equals the loop loss for all inputs, and the Dirichlet-set loss is the squared net residual of every set plus the pointwise free residual.", "quantifier": "every force array, label array and number of sets", "why_tests_cant": "arbitrary set labellings", "anchors": ["src/hookeai/material_model_finder/model/material_discovery.py: force_equilibrium_loss, vforce_equilibrium_loss, compute_dirichlet_sets_reaction"]}
{"id": "C17", "title": "Processing elements before times or times before elements is equivalent", "statement": "The sequential-time and sequential-element forward modes compute the same force-equilibrium loss from the same initial material state.", "quantifier": "every mesh, number of time steps, constitutive update and displacement history", "why_tests_cant": "loop interchange over all histories with state", "anchors": ["src/hookeai/material_model_finder/model/material_discovery.py: forward_sequential_time, forward_sequential_element, compute_element_internal_forces_hist", "src/hookeai/simulators/fetorch/structure/structure_state.py"]}
{"id": "C18", "title": "Displacement increments telescope to the displacement", "statement": "The strain handed to the material after t steps equals the strain of the total displacement at step t.", "quantifier": "every displacement history and every step", "why_tests_cant": "all histories; the initial-step convention loses the first displacement", "anchors": ["src/hookeai/material_model_finder/data/specimen_data.py: update_specimen_mesh_configuration", "src/hookeai/simulators/fetorch/structure/structure_mesh.py: update_mesh_configuration"]}
{"id": "C19", "title": "Elastic material: stress is linear, path independent and isotropically correct", "statement": "The elastic state update produces Hooke's law for the accumulated strain irrespective of how the strain is split into increments; isotropic tangent equals lambda tr(e) I + 2 mu e.", "quantifier": "every increment sequence and every admissible E, nu", "why_tests_cant": "all increment splittings", "anchors": ["src/hookeai/simulators/fetorch/material/models/standard/elastic.py: state_update, elastic_tangent_modulus"]}
{"id": "C20", "title": "Hardening laws are continuous, and the reported slope is the derivative", "statement": "Each hardening law returns the yield stress at the accumulated plastic strain and its derivative; the piecewise linear law interpolates its points and is constant outside their range.", "quantifier": "every parameter set and plastic strain", "why_tests_cant": "a derivative statement on a continuum; breakpoints are measure-zero for tests", "anchors": ["src/hookeai/simulators/fetorch/material/models/standard/hardening.py"]}
{"id": "C21", "title": "von Mises return mapping: consistency, plastic incompressibility, irreversibility", "statement": "After a converged state update the von Mises stress does not exceed the updated yield stress beyond tolerance, plastic strain increments are deviatoric, accumulated plastic strain never decreases, elastic steps leave it unchanged, the total strain increases by exactly the increment, and non-convergence is flagged with undefined outputs rather than a silently wrong state.", "quantifier": "every prior state, strain increment, monotone hardening law and elastic constants", "why_tests_cant": "Newton iteration over all reals", "anchors": ["src/hookeai/simulators/fetorch/material/models/standard/von_mises.py: state_update"]}
{"id": "C22", "title": "von Mises with linear hardening converges in one Newton step", "statement": "For linear isotropic hardening the return mapping reaches exact consistency after a single correction from every plastic trial state.", "quantifier": "every plastic trial state and linear hardening parameters", "why_tests_cant": "holds for a continuum of trial states", "anchors": ["src/hookeai/simulators/fetorch/material/models/standard/von_mises.py: state_update", "src/hookeai/simulators/fetorch/material/models/standard/hardening.py: LinearIHL"]}
{"id": "C23", "title": "Fixed-iteration (vmap) return mapping equals the early-exit loop", "statement": "The vmap material models' fixed number of masked Newton iterations ends with the same unknowns, flags and outputs as a loop that stops at convergence or after the maximum number of iterations.", "quantifier": "every residual function, starting guess, tolerance and iteration limit", "why_tests_cant": "all iterates, including convergence at each possible iteration", "anchors": ["src/hookeai/simulators/fetorch/material/models/vmap/von_mises.py: state_update and Newton helper"]}
{"id": "C24", "title": "Consistent tangent is the derivative of the stress update", "statement": "The consistent tangent returned with a state update is the derivative of the stress with respect to the strain increment.", "quantifier": "every state where the update is differentiable", "why_tests_cant": "derivative at every point of a continuum", "anchors": ["src/hookeai/simulators/fetorch/material/models/standard/von_mises.py: state_update (tangent)", "src/hookeai/simulators/fetorch/material/models/standard/drucker_prager.py: state_update (tangent)"]}
{"id": "C25", "title": "Data scalers invert", "statement": "For every fitted or set scaler, inverse-transforming a transformed tensor returns the original feature values; fitted min-max outputs lie in the normalised range on the fitting data and fitted standardised data have zero mean and unit variance.", "quantifier": "every data tensor (including constant features) and every number of features", "why_tests_cant": "all data sets; degenerate features", "anchors": ["src/hookeai/utilities/data_scalers.py: TorchMinMaxScaler, TorchStandardScaler"]}
{"id": "C26", "title": "Model parameters stay within their bounds and normalisation inverts", "statement": "After enforcing bounds each learnable parameter lies in its interval (in the normalised or the physical representation), parameters already inside are unchanged, and normalising then denormalising a parameter returns it.", "quantifier": "every parameter vector, bounds and optimiser history", "why_tests_cant": "every optimiser trajectory", "anchors": ["src/hookeai/model_architectures/rc_base_model/model/recurrent_model.py: transform_parameter, enforce_parameters_bounds, get_detached_model_parameters", "src/hookeai/material_model_finder/model/material_discovery.py: enforce_parameters_bounds"]}
{"id": "C27", "title": "Recurrent constitutive model: causal, incremental stress path", "statement": "The stress at step t depends only on strains up to t, the path starts at the initial state, each step applies the material update to the strain increment, so adding a constant strain offset to the whole path does not change the response, and processing a path in two pieces with the carried state equals processing it at once.", "quantifier": "every strain path, length and material update function", "why_tests_cant": "all path lengths and update functions", "anchors": ["src/hookeai/model_architectures/rc_base_model/model/recurrent_model.py: _compute_stress_path, _vcompute_stress_path"]}
{"id": "C28", "title": "GRU: bounded hidden state, causality, streaming and batch independence", "statement": "Hidden states of the GRU lie in [-1,1] whenever the initial state does; outputs at step t depend only on inputs up to t; processing a sequence in two chunks with the carried hidden state equals processing it at once; each batch member is processed independently.", "quantifier": "every weight set, number of layers, sequence length and inputs", "why_tests_cant": "all weights and lengths", "anchors": ["src/hookeai/model_architectures/rnn_base_model/custom/gru_vmap.py: GRUCell.forward, GRU.forward"]}
{"id": "C29", "title": "Early stopping semantics", "statement": "The early stopper requests stopping exactly when the validation loss has failed to improve sufficiently for the configured number of consecutive validations, never before; the recorded best epoch/state is the one with the smallest validation loss seen; and the best loss recorded never increases.", "quantifier": "every sequence of validation losses and every tolerance configuration", "why_tests_cant": "all loss histories", "anchors": ["src/hookeai/model_architectures/rnn_base_model/train/training.py: EarlyStopper", "src/hookeai/model_architectures/rc_base_model/train/training.py: EarlyStopper"]}
{"id": "C30", "title": "Training performs the requested number of epochs and saves the best model", "statement": "Training for n_max_epochs epochs performs n_max_epochs epochs of optimisation and the state saved as best is the one whose loss was the smallest recorded.", "quantifier": "every loss/optimiser behaviour and every n_max_epochs", "why_tests_cant": "all loss sequences; off-by-one in epochs and in which state is saved is invisible to smoke tests", "anchors": ["src/hookeai/model_architectures/rnn_base_model/train/training.py: train_model", "src/hookeai/model_architectures/rc_base_model/train/training.py: train_model", "src/hookeai/material_model_finder/train/training.py: train_model"]}
{"id": "C31", "title": "Parameter convergence criterion", "statement": "The parameter-convergence test reports convergence exactly when every tracked parameter's last trigger_tolerance consecutive relative changes are all below the tolerance and the history is long enough.", "quantifier": "every parameter history", "why_tests_cant": "all histories and lengths", "anchors": ["src/hookeai/model_architectures/rc_base_model/train/training.py: check_model_parameters_convergence"]}
{"id": "C32", "title": "Model state file protocol", "statement": "After any sequence of saves there is at most one best-state file and it holds the last saved best state; saving at epoch e removes all states of later epochs and leaves earlier ones and unrelated files intact; loading the last/best/given epoch state returns what was saved for it.", "quantifier": "every sequence of save/load operations and directory content", "why_tests_cant": "all operation histories", "anchors": ["src/hookeai/model_architectures/procedures/model_state_files.py"]}
{"id": "C33", "title": "Structure state: converged state is isolated from current state", "statement": "Updating an element's current constitutive state never changes the stored last-converged state, reading returns the last written value, other elements are unaffected, and committing makes the current state the converged one.", "quantifier": "every sequence of update/read/commit operations and number of elements", "why_tests_cant": "aliasing appears only in particular operation orders", "anchors": ["src/hookeai/simulators/fetorch/structure/structure_state.py: update_element_state, get_element_state, update_converged_elements_state"]}
{"id": "C34", "title": "Dataset editing operations", "statement": "Concatenating, summing, renaming, initialising or removing features affects exactly the requested features of every sample and leaves all else unchanged; splitting partitions the data set; removing and adding samples conserves the rest.", "quantifier": "every data set, feature set and index set", "why_tests_cant": "all data sets and index sets", "anchors": ["src/hookeai/time_series_data/time_dataset.py"]}
{"id": "C35", "title": "Dictionary precision conversion does not mutate its input unless asked", "statement": "Converting a (nested) dictionary with in-place disabled returns the converted dictionary and leaves the argument, including nested dictionaries, unchanged; with in-place enabled the argument itself is converted.", "quantifier": "every nested dictionary", "why_tests_cant": "all nesting shapes and aliasing", "anchors": ["src/hookeai/utilities/type_conversion.py"]}
{"id": "C36", "title": "Cyclic strain paths have the requested length and structure", "statement": "A generated strain path with n_cycle cycles has exactly n_time points, starts and ends at the initial strain, retraces the forward path backwards in each cycle and each cycle repeats the previous one.", "quantifier": "every n_time, n_cycle and forward path", "why_tests_cant": "all combinations of n_time and n_cycle (integer division remainders)", "anchors": ["src/hookeai/data_generation/strain_paths/proportional_path.py: generate_strain_path", "src/hookeai/data_generation/strain_paths/random_path.py: generate_strain_path"]}
{"id": "C37", "title": "Generated strain paths respect their bounds", "statement": "Each strain component of a generated path lies within its sampling bounds; non-constant components start from zero strain; prescribed increment norms are met exactly.", "quantifier": "every bounds, sampled control values and number of time points", "why_tests_cant": "all sampled values", "anchors": ["src/hookeai/data_generation/strain_paths/proportional_path.py", "src/hookeai/data_generation/strain_paths/random_path.py"]}
{"id": "C38", "title": "Moving-average denoising", "statement": "Moving-average denoising keeps the path length, leaves constant paths unchanged, never leaves the range of the data, is linear in the data, and reproduces affine paths away from the ends for odd windows.", "quantifier": "every path, window size and number of features", "why_tests_cant": "all lengths and windows", "anchors": ["src/hookeai/utilities/data_denoisers.py: _dn_moving_average"]}
{"id": "C39", "title": "Regular patch mesh: labels, coordinates, connectivities", "statement": "The generated regular mesh numbers its nodes consecutively without gaps or duplicates, distinct nodes have distinct coordinates, and every element's connectivity consists of existing distinct nodes placed at the element's own corner/edge positions.", "quantifier": "every element type and every number of elements per dimension", "why_tests_cant": "all mesh sizes", "anchors": ["src/hookeai/data_generation/spdg/patch_generator.py: _generate_finite_element_mesh, _get_elem_node_index", "src/hookeai/simulators/links/links.py: _get_links_mesh_data", "src/hookeai/simulators/links/discretization/finite_element.py"]}
{"id": "C40", "title": "Removing mesh elements preserves the remaining mesh", "statement": "Removing elements from a mesh relabels nodes and elements consecutively while every remaining element keeps its material phase and the coordinates of each of its nodes; nodes used only by removed elements disappear.", "quantifier": "every mesh and set of removed elements", "why_tests_cant": "all meshes and removal sets", "anchors": ["src/hookeai/simulators/links/links.py: remove_mesh_elements"]}
{"id": "C41", "title": "Fresh directory and file names", "statement": "Creating a directory without overwrite never touches an existing directory and returns a directory that did not exist; the new-file-path helper returns a path that does not exist, equal to the requested one when it is free.", "quantifier": "every file system content", "why_tests_cant": "all existing name sets", "anchors": ["src/hookeai/ioput/iostandard.py: make_directory, new_file_path_with_int"]}
{"id": "C42", "title": "Hybridisation channels", "statement": "The hybridisation channels group the models by row index in ascending order and each channel applies them in ascending column order irrespective of the dictionary insertion order, using each model exactly once; duplicate positions are rejected.", "quantifier": "every dictionary of hybridised model indices", "why_tests_cant": "all insertion orders and sizes", "anchors": ["src/hookeai/model_architectures/hybrid_base_model/model/hybrid_model.py: get_hybridization_channels"]}
{"id": "C43", "title": "Stress invariants of the Lou-Zhang-Yoon criterion", "statement": "The second and third invariants computed from principal invariants are those of the deviatoric stress, are unaffected by adding a hydrostatic stress, and the criterion reduces to Drucker-Prager/von Mises for vanishing third-invariant parameters.", "quantifier": "every symmetric stress tensor and yield parameters", "why_tests_cant": "polynomial identities over all stresses", "anchors": ["src/hookeai/simulators/fetorch/material/models/standard/lou.py: get_stress_invariants, get_effective_stress"]}
{"id": "C44", "title": "Convexity return mapping returns convex parameters", "statement": "When the yield parameters are not convex, the return mapping yields parameters in the same direction, within the search tolerance of the convexity boundary, and inside the convex domain.", "quantifier": "every convexity domain (star-shaped) and direction", "why_tests_cant": "all domains; the last bisection test point may be on either side", "anchors": ["src/hookeai/simulators/fetorch/material/models/standard/lou.py: convexity_return_mapping, directional_convex_boundary"]}
{"id": "C45", "title": "Dataset pruning conserves samples", "statement": "Each pruning step moves exactly the requested samples from the development to the unused data set: no sample is lost or duplicated over any number of steps.", "quantifier": "every data set, random split, loss ranking and number of steps", "why_tests_cant": "all splits and histories", "anchors": ["src/hookeai/miscellaneous/pruning/pruning_dataset.py: perform_pruning_step", "src/hookeai/time_series_data/time_dataset.py: get_parent_dataset_indices, remove_dataset_samples, add_dataset_samples"]}
{"id": "C46", "title": "Derivative of the inverse of a symmetric tensor", "statement": "The fourth-order tensor returned for the derivative of the inverse of a symmetric invertible second-order tensor, contracted with any symmetric direction, is the directional derivative of the inverse in that direction.", "quantifier": "every dimension, every differentiable path of symmetric invertible tensors and every symmetric direction", "why_tests_cant": "a statement about limits; finite differences at sampled tensors only approximate it", "anchors": ["src/hookeai/simulators/fetorch/math/tensorops.py: fo_dinv_sym"]}
{"id": "C47", "title": "Consistency of the vectorised von Mises update", "statement": "A plastic step of the vectorised von Mises update either is flagged as failed or returns a stress on the updated yield surface within the convergence tolerance, with the trial volumetric strain preserved and a strictly larger accumulated plastic strain.", "quantifier": "every material, monotone hardening law, symmetric trial strain and accumulated plastic strain", "why_tests_cant": "all trial states; the flow vector is normalised by a shifted norm whose error depends on the ratio of stresses to the machine constant", "anchors": ["src/hookeai/simulators/fetorch/material/models/vmap/von_mises.py: state_update"]}
{"id": "C48", "title": "Learnable parameters reach the material model", "statement": "Synchronising stores every learnable parameter, in its physical value, at the place where the material model reads it (including the parameters derived from the friction angle), leaves all other material parameters unchanged and rejects parameters the model does not have.", "quantifier": "every material model, set of learnable parameters, parameter values and material parameter dictionary", "why_tests_cant": "all combinations of models, parameters and values; a wrong key is silent because the material keeps a stale value", "anchors": ["src/hookeai/model_architectures/rc_base_model/model/recurrent_model.py: sync_material_model_parameters"]}
{"id": "C49", "title": "Exact linearisation of the Lou return mapping", "statement": "The Jacobian assembled for the Newton iterations of the Lou return mapping (Kelvin matrix form, bordered by the accumulated plastic strain and the multiplier) is the derivative of the residual vector with respect to the unknowns, and the flow tensor is the gradient of the effective stress.", "quantifier": "every elastic tangent with minor symmetries, smooth hardening laws, associative or not, every symmetric elastic strain with an invertible deviatoric stress and every direction of the unknowns", "why_tests_cant": "a statement about derivatives of a composition of about twenty tensor formulas; finite differences at sampled states only approximate it", "anchors": ["src/hookeai/simulators/fetorch/material/models/standard/lou.py: get_residual_and_jacobian"]}
{"id": "C50", "title": "Converged Lou steps solve the backward Euler equations", "statement": "A state returned by the Lou update without the failure flag is either the elastic trial state inside the yield surface, or a solution, within the convergence tolerance, of the backward Euler equations on the surface (flow along the gradient of the effective stress, evolution of the accumulated plastic strain, yield condition), or a purely volumetric state at the apex; the stress is the elastic stress of the returned strain, the total strain is the sum of the increments, and plane strain is the restriction of the three-dimensional update. An undefined state stays flagged as failed.", "quantifier": "every linear solver, material constants, hardening laws, symmetric increments and previous states", "why_tests_cant": "all solvers, laws, histories and increments; the return branch depends on real inequalities", "anchors": ["src/hookeai/simulators/fetorch/material/models/standard/lou.py: state_update"]}
{"id": "C51", "title": "The Lou update handles every admissible increment and never un-yields", "statement": "For admissible parameters the Lou update returns a state (possibly flagged as failed) for every increment, and a plastic step never decreases the accumulated plastic strain.", "quantifier": "all admissible parameters, states and symmetric increments", "why_tests_cant": "the exceptional states (no third deviatoric invariant; pressures just below the apex) form sets that sampled strain paths miss or hit without a check on the internal variable", "anchors": ["src/hookeai/simulators/fetorch/material/models/standard/lou.py: state_update, get_residual_and_jacobian"]}
{"id": "C52", "title": "Drucker-Prager steps satisfy flow rule, yield condition and irreversibility", "statement": "A Drucker-Prager update that is not flagged as failed is the elastic trial state inside the cone, or a return to the smooth part of the cone (flow along the gradient of the potential, deviatoric stress scaled radially by a non-negative factor, yield condition within the tolerance), or a return to the apex, taken only when the cone has no admissible solution (hydrostatic stress at the apex pressure within the tolerance). The total strain is the sum of the increments, the stress is the elastic stress of the returned strain, the accumulated plastic strain does not decrease, plane strain is the restriction of three dimensions, undefined states stay failed, and linear hardening never fails.", "quantifier": "every hardening law, material constants with non-singular elasticity, previous state and symmetric increment", "why_tests_cant": "the branch taken depends on real inequalities of the trial state; all laws, states and increments", "anchors": ["src/hookeai/simulators/fetorch/material/models/standard/drucker_prager.py: DruckerPrager.state_update"]}
{"id": "C53", "title": "The Drucker-Prager consistent tangent is the derivative of the stress", "statement": "The tangent modulus returned with an update is the derivative of the updated stress with respect to the strain increment, for elastic steps, returns to the cone and returns to the apex.", "quantifier": "all material constants, states strictly inside a branch and all directions", "why_tests_cant": "a derivative in every direction at every state; finite differences in tests use volume-preserving or sampled strains", "anchors": ["src/hookeai/simulators/fetorch/material/models/standard/drucker_prager.py: DruckerPrager.state_update (consistent tangent)"]}
{"id": "C54", "title": "Mixed hardening steps satisfy the flow rule and end on the yield surface", "statement": "An update of the von Mises model with isotropic and kinematic hardening either flags failure or yields a state in which the plastic strain increment is deviatoric and along the relative trial stress, the accumulated plastic strain grows by its equivalent size, the back stress moves along it by the increment of the kinematic hardening stress, and the final relative stress is inside the yield surface, on it after plastic flow.", "quantifier": "all hardening laws bounded below and non-decreasing, all states with deviatoric back stress, all strain increments, in three dimensions and plane strain", "why_tests_cant": "a condition on the result for every law, state and increment; sampled paths cannot separate a wrong back stress factor from hardening", "anchors": ["src/hookeai/simulators/fetorch/material/models/standard/von_mises_mixed.py: VonMisesMixed.state_update", "src/hookeai/simulators/fetorch/material/models/vmap/von_mises_mixed.py: VonMisesMixedVMAP"]}
{"id": "C55", "title": "Mixed hardening: histories, special cases and closed form", "statement": "Over any history the strain is the sum of the increments, plastic strain and back stress stay deviatoric, accumulated plastic strain never decreases, and a failure persists. With constant kinematic hardening stress the update is exactly the isotropic von Mises update; with linear laws the multiplier is (q - y) / (3G + h + k), found in one correction, and no step fails.", "quantifier": "all histories of any length, all laws, states and increments", "why_tests_cant": "an invariant over unbounded histories and the equality of two programs on all inputs", "anchors": ["src/hookeai/simulators/fetorch/material/models/standard/von_mises_mixed.py: VonMisesMixed.state_update", "src/hookeai/simulators/fetorch/material/models/standard/von_mises.py: VonMises.state_update"]}
{"id": "C56", "title": "The mixed hardening consistent tangent is the derivative of the stress, in both implementations", "statement": "The tangent modulus returned by the standard and the vectorised mixed hardening models is the derivative of the updated stress, and the vectorised model takes the same branch, multiplier and failures as the standard one.", "quantifier": "all material constants, laws, states away from the yield surface and all directions, for any iteration limit", "why_tests_cant": "a derivative in every direction at every state, and the equality of two iteration schemes on all inputs", "anchors": ["src/hookeai/simulators/fetorch/material/models/standard/von_mises_mixed.py: VonMisesMixed.state_update (consistent tangent)", "src/hookeai/simulators/fetorch/material/models/vmap/von_mises_mixed.py: VonMisesMixedVMAP (consistent tangent, return mapping)"]}
{"id": "C57", "title": "Strain and stress features are functions of the tensor", "statement": "The array of components is read back into the tensor it stores for every admissible component order; the strain features are the first and second principal invariants, unchanged by a change of frame; the stress features split the stress into volumetric and deviatoric parts, the latter traceless; adding a feature changes nothing else in the data set and each sample gets the feature of its own path.", "quantifier": "all component orders (symmetric or full), tensors, rotations, paths of any length and data sets of any size in memory or in files", "why_tests_cant": "an identity for every tensor and order; tests use one order and a handful of tensors", "anchors": ["src/hookeai/model_architectures/materials/strain_features.py: add_strain_features, compute_strain_feature, build_strain_from_comps", "src/hookeai/model_architectures/materials/stress_features.py: add_stress_features, compute_stress_feature, build_stress_from_comps, store_stress_comps"]}
{"id": "C58", "title": "Volumetric/deviatoric composition inverts the stress features", "statement": "The composition layer adds the volumetric feature to the diagonal components and nothing else, treats the sequences of a batch independently, gives back the stress from its two stress features, and does not modify its input.", "quantifier": "all series, batched or not, of any length and batch size", "why_tests_cant": "absence of aliasing and exactness for all shapes cannot be sampled", "anchors": ["src/hookeai/model_architectures/hybrid_base_model/model/hybridized_layers.py: VolDevCompositionModel.forward"]}
{"id": "C59", "title": "Batched elastic layer is Hooke's law", "statement": "The layer returns the stress of the elastic strain, given as such or as total strain minus plastic strain, for each time and sequence of the batch, in three dimensions and plane strain, for the elastic symmetry it was constructed with.", "quantifier": "all elastic constants, elastic symmetries, strain series of any shape", "why_tests_cant": "equality with a tensor law for all inputs, including Kelvin factors and flattening of batches", "anchors": ["src/hookeai/model_architectures/hybrid_base_model/model/hybridized_layers.py: BatchedElasticModel.__init__, BatchedElasticModel.forward"]}
{"id": "C60", "title": "Low-pass denoiser is the projection onto the frequencies below the cutoff", "statement": "The denoised path has the shape of the input; the filter is linear and idempotent (so repeated cycles change nothing), keeps the mean, keeps the Fourier coefficients up to the cutoff and zeroes the others, passes a pure tone unchanged exactly when its frequency is not above the cutoff, never increases the energy and returns the closest band-limited signal; asking for the spectrum plot does not change the result.", "quantifier": "all signals of any length, all cutoffs, tones, phases and numbers of cycles", "why_tests_cant": "an identity of trigonometric sums for every length; tests compare a few signals up to rounding", "anchors": ["src/hookeai/utilities/data_denoisers.py: Denoiser._dn_frequency_low_pass, Denoiser.denoise"]}
{"id": "C61", "title": "Loss functions: mean relative error and its gradient", "statement": "The mean relative error is the mean of |prediction - target| / |target| with the chosen handling of targets near zero (absolute error, clipped or regularised denominator), is zero exactly when prediction and target agree, is invariant under reordering and change of units, and its gradient with respect to the prediction is the derivative of that value.", "quantifier": "all tensors of any size, all handling modes, all units and orders", "why_tests_cant": "invariances and derivatives over all inputs; the gradient at null targets is never sampled by tests", "anchors": ["src/hookeai/utilities/loss_functions.py: get_pytorch_loss, MeanRelativeErrorLoss.forward"]}
{"id": "C62", "title": "Prediction metrics are the named statistics of the stored predictions", "statement": "Each requested metric (mean squared error, its root, mean absolute value of predictions or of ground truth) is the named statistic over all samples and times, per feature; metrics that need no ground truth are computed without it; missing files and unknown labels are refused; RMSE squares to MSE and MSE vanishes exactly on perfect predictions and equals the training loss.", "quantifier": "all sets of prediction files, labels, features and paths of any length", "why_tests_cant": "statistics over arbitrary many samples and arbitrary requested label lists", "anchors": ["src/hookeai/utilities/prediction_metrics.py: compute_prediction_metrics, get_sample_n_features, get_feature_data"]}
{"id": "C63", "title": "Batching neither mixes nor loses samples", "statement": "Collation puts time t of sample b at position (t, b) for exactly the tensor features of the first sample, and succeeds exactly when all samples have those features with equal shapes; one epoch of the loader visits every sample exactly once, in batches of at most batch_size, with the expected number of batches.", "quantifier": "all data sets, sample dictionaries, batch sizes and visiting orders", "why_tests_cant": "a permutation statement over all data set sizes and batch sizes", "anchors": ["src/hookeai/time_series_data/time_dataset.py: time_collator, get_time_series_data_loader"]}
{"id": "C64", "title": "Scalers fitted sample by sample equal scalers fitted on all data", "statement": "Fitting a scaler incrementally over a data set gives the same parameters as fitting it on one tensor with all times of all samples: pooled minimum and maximum, pooled mean and biased standard deviation; the result does not depend on the order of the samples or on how the data are split; the fitted scaler maps the data to the requested bounds or to zero mean and unit variance; given parameters are overridden, and missing features, empty data sets and unknown types are refused.", "quantifier": "all data sets, path lengths per sample, numbers of features and scaling types", "why_tests_cant": "induction over the number of samples; incremental update formulas are only compared on small arrays by tests", "anchors": ["src/hookeai/utilities/fit_data_scalers.py: fit_data_scaler_from_dataset, mean_std_batch_fit, min_max_batch_fit"]}
{"id": "C65", "title": "A model's data scalers are stored, restored and applied consistently", "statement": "Denormalising a normalised tensor with a model's scaler returns it; a model without scalers refuses to transform; fitting or setting the scalers stores them in the model and its initialization file, a model restored from the directory has the same scalers, and the fitted scalers normalise the data set they were fitted on; a failed fit leaves the model's scalers unchanged; setting given scaler parameters works for every model class.", "quantifier": "all models of the three classes, scalers, tensors, data sets and model directories", "why_tests_cant": "sequences of construct, fit, save and restore operations over arbitrary data", "anchors": ["src/hookeai/model_architectures/procedures/model_data_scaling.py: data_scaler_transform, fit_data_scalers_from_dataset, set_fitted_data_scalers, load_model_data_scalers_from_file"]}
{"id": "C66", "title": "Predictions stored for a data set are those of its samples, whatever the batch size", "statement": "For every batch size, predict stores one file per sample, numbered in data set order, with the denormalised output of the network for that sample, its targets and its loss; the average loss is the mean of the sample losses and is reported in the summary; the normalised loss compares the network's own output with the normalised targets; data sets without ground truth are predicted without loss; empty data sets and unknown loss natures are refused.", "quantifier": "all networks that treat the sequences of a batch independently, row-wise scalers, data sets and batch sizes", "why_tests_cant": "a statement about every batch size and data set size; batching errors appear only for particular remainders", "anchors": ["src/hookeai/model_architectures/rnn_base_model/predict/prediction.py: predict, compute_sample_prediction_loss", "src/hookeai/model_architectures/procedures/model_prediction.py: save_sample_predictions, write_prediction_summary_file"]}
{"id": "C67", "title": "A model restored from its initialization file has the constructor's arguments", "statement": "Constructing a model writes an initialization file from which a model of the same class with the same arguments and scalers is restored; restoring never overwrites the file; a missing directory is refused.", "quantifier": "all argument values accepted by the constructors of the three model classes", "why_tests_cant": "every parameter must be in the file; a parameter left at its default in tests hides the omission", "anchors": ["src/hookeai/model_architectures/rnn_base_model/model/gru_model.py: GRURNNModel.__init__, save_model_init_file, init_model_from_file", "src/hookeai/model_architectures/rc_base_model/model/recurrent_model.py: RecurrentConstitutiveModel.__init__, save_model_init_file, init_model_from_file", "src/hookeai/model_architectures/hybrid_base_model/model/hybrid_model.py: HybridModel.__init__, save_model_init_file, init_model_from_file"]}
{"id": "C68", "title": "Rigid motions of a generated patch are rigid, and optional", "statement": "The rotation tensor built from Euler angles is the Bunge product Z-X-Z, orthogonal with determinant one, and the identity for null angles; the rigid motion of an iteration preserves all distances, in two and three dimensions; without a translation or rotation range there is no such motion.", "quantifier": "all angles, ranges, draws, centroids and points", "why_tests_cant": "trigonometric identities for all angles; the tests of the code never omit the ranges", "anchors": ["src/hookeai/data_generation/spdg/patch_generator.py: rotation_tensor_from_euler_angles, _get_random_rigid_motions, generate_deformed_patch"]}
{"id": "C69", "title": "Displacements of the patch corners respect their ranges and conditions", "statement": "Every corner displacement lies within its range, so fixed degrees of freedom do not move; the ends of an edge of order zero move by the same amount in the directions orthogonal to the edge.", "quantifier": "all ranges, boundary conditions, orders and draws in two and three dimensions", "why_tests_cant": "random draws and combinations of ranges over all edges; tests sample a few", "anchors": ["src/hookeai/data_generation/spdg/patch_generator.py: _build_corners_disp_range, _get_corners_random_displacements"]}
{"id": "C70", "title": "Deformed edges join the displaced corners along the sampled polynomial", "statement": "Every edge starts and ends at its displaced corners, whatever its order and the noise; its frame is orthonormal with the first vector along the edge and the second pointing outwards; the polynomial goes through its control points; without noise the nodes follow the polynomial in order at equal fractions of its length; straight edges are divided equally and reproduce affine deformations; the outward displacement stays within the range of the edge.", "quantifier": "all corner positions, dimensions, orders, draws, ranges and numbers of nodes", "why_tests_cant": "real geometry for all positions and orders; only a proof covers every polynomial", "anchors": ["src/hookeai/data_generation/spdg/patch_generator.py: _get_deformed_boundary_edge, _polynomial_sampler, _rotation_tensor_deformed_edge, generate_deformed_patch"]}
{"id": "C71", "title": "The prescribed boundary displacements are those of the deformed edges", "statement": "Every boundary node of the mesh is prescribed the displacement of its node of the deformed edges, corners shared by two edges consistently, and no other node is; inner nodes of a face interpolate the displacements of its edges; the returned configuration is the one of an admissible iteration, and none is returned only if no iteration was admissible.", "quantifier": "all meshes, deformed edges, faces, draws and numbers of iterations", "why_tests_cant": "dictionary filled over all nodes with float look-up; order of the edges and shared nodes matter", "anchors": ["src/hookeai/data_generation/spdg/patch_generator.py: _get_mesh_boundary_nodes_disps, _get_node_label_from_coords, generate_deformed_patch"]}
{"id": "C72", "title": "Transfer learning models and model hybridization compute the documented functions", "statement": "The polynomial regressor returns, for each feature, the polynomial of that feature with its own coefficients, for sequences and batches of any size, each sequence independently of the others; it is linear in its weights and its values determine the polynomial; the constructor starts from the identity; inputs of another width are refused; the elastic transfer layer returns Hooke's stress of each strain, in agreement with the hybridized elastic layer; the additive hybridization sums the outputs of the models, other types are refused; degree zero gives the constant model and the device of a regressor can be read.", "quantifier": "all weights, degrees, feature counts, sequences, batches, material parameters and lists of models", "why_tests_cant": "values of a real function for all inputs and sizes; identifiability needs a uniqueness argument", "anchors": ["src/hookeai/model_architectures/hybrid_base_model/model/transfer_learning.py: PolynomialLinearRegressor, BatchedElasticModel", "src/hookeai/model_architectures/hybrid_base_model/model/hybridization.py"]}
{"id": "C73", "title": "The noise generator has the stated distributions", "statement": "Every entry of a noise path uses its own draw; uniform noise is centred with the given amplitude, Gaussian noise has the given standard deviation, spikes are added with the given probability; heteroscedastic noise is scaled by the weight of each time and, without weights, agrees in distribution with homoscedastic noise; for white draws the entries are uncorrelated with the given variance; null parameters give no noise; unknown distributions or variabilities, missing parameters and a generator not set up are refused with an error saying so.", "quantifier": "all shapes, parameters, weights and streams of draws", "why_tests_cant": "a statement about every draw and about second moments; sampling tests accept wrong scalings within their tolerance", "anchors": ["src/hookeai/data_generation/strain_paths/noise_generator.py: NoiseGenerator"]}
{"id": "C74", "title": "Noise injection changes the displacements of later time steps only", "statement": "Injecting noise writes one file per time step in order; the first is unchanged, in the others only the displacement columns change, each entry by a fresh noise of the chosen distribution (at most half the amplitude for uniform noise); tables of another width and missing directories are refused; the original data are never lost.", "quantifier": "all directories, tables, time step numbers, distributions and draws", "why_tests_cant": "all files, rows and columns; data loss occurs only for particular directory names", "anchors": ["src/hookeai/miscellaneous/noisy_data/inject_disp_noise_csv.py"]}
{"id": "C75", "title": "Strain and stress tensors are assembled faithfully from their named components", "statement": "The tensor built from a list of components has, at every pair of indices, the value of the component of that name, and is symmetric when the formulation is; a strain tensor is built from exactly the components of the problem, every other list being refused; the stress invariants agree with their definitions.", "quantifier": "all orders of components, values, dimensions and formulations", "why_tests_cant": "all orders of the components; a missing or repeated component gives a tensor with silent zeros", "anchors": ["src/hookeai/user_scripts/synthetic_data/gen_response_dataset.py: build_tensor_from_comps, store_tensor_comps, get_stress_invariants", "src/hookeai/data_generation/strain_paths/interface.py: build_strain_tensor"]}
{"id": "C76", "title": "The stress path of a strain path is the material's response and agrees with the recurrent model", "statement": "For every strain path the generated stress path starts at the reference state and at each later time holds the stress and state variables of the incremental updates from the previous state; the recurrent constitutive model predicts the same path; for the elastic model in 3D the stress is Hooke's law of the total strain.", "quantifier": "all material models, strain paths, component orders and requested state variables", "why_tests_cant": "induction over unbounded paths; two implementations must agree for every material", "anchors": ["src/hookeai/user_scripts/synthetic_data/gen_response_dataset.py: compute_stress_path", "src/hookeai/rc_base_model/model/recurrent_model.py"]}
{"id": "C77", "title": "A response data set holds one successful path per sample, in order", "statement": "A data set of n samples holds the first success of at most ten trials of each sample, in order; a sample that fails ten times stops the generation with an error; a data set of strains only and one read from csv files hold what the files contain, in order; regenerating from the same draws gives the same data.", "quantifier": "all strain path generators, material models, numbers of samples and directories of csv files", "why_tests_cant": "all failure patterns of the material update; ten trials in a row rarely fail in a test", "anchors": ["src/hookeai/user_scripts/synthetic_data/gen_response_dataset.py: generate_dataset, gen_strain_dataset, generate_dataset_from_csv"]}
{"id": "C78", "title": "A noisy response data set differs from the clean one by the configured noise only", "statement": "Every noisy path has the clean path's time and all its features except the strain; the strain of each sample differs by fresh noise of the configured law (bounded by half the amplitude for uniform noise), scaled as chosen; denoising leaves the first row and acts after the noise.", "quantifier": "all data sets, noise laws, draws and scaling options", "why_tests_cant": "statements about the law of random draws and about every option combination", "anchors": ["src/hookeai/user_scripts/synthetic_data/gen_noisy_response_dataset.py"]}
{"id": "C79", "title": "The vectorised Drucker-Prager update satisfies its law and agrees with the standard update", "statement": "A successful vectorised update obeys Hooke's law, the flow rule and, up to the tolerance, the yield condition, with elastic, cone or apex return chosen as in the theory; plane strain is the restriction of three dimensions; a failed or undefined state gives undefined outputs and the failure flag, never a wrong stress; it returns the state and flags of the standard update, and succeeds for linear hardening.", "quantifier": "all strains, increments, parameters and hardening laws, in three dimensions and plane strain", "why_tests_cant": "both branches are always computed and masked, so that errors show up only for particular states; two implementations must agree for every input", "anchors": ["src/hookeai/simulators/fetorch/material/models/vmap/drucker_prager.py: DruckerPragerVMAP.state_update", "src/hookeai/simulators/fetorch/material/models/standard/drucker_prager.py"]}
{"id": "C80", "title": "The tangent of the vectorised Drucker-Prager update is the derivative of its stress", "statement": "The consistent tangent returned with a vectorised update is the derivative of the updated stress with respect to the strain increment, in every symmetric direction, for elastic updates and for returns to the cone and the apex.", "quantifier": "all states in the interior of each regime, linear hardening (any hardening for elastic updates)", "why_tests_cant": "a derivative at every state; finite differences do not see a relative error of 1e-8", "anchors": ["src/hookeai/simulators/fetorch/material/models/vmap/drucker_prager.py: DruckerPragerVMAP.state_update"]}
{"id": "C81", "title": "A specimen mesh read from its input file is the mesh that was written", "statement": "Reading the mesh file written for any mesh gives back its node coordinates, connectivities and element types; a file without nodes, without elements, with an unknown element type or with elements missing is refused; nodes and elements are matched by their labels; comments, keywords in lower case and continued lines are read as the format defines.", "quantifier": "all meshes (any number of nodes, elements and element types) and all input files", "why_tests_cant": "all files that satisfy or break the format; the round trip of every mesh", "anchors": ["src/hookeai/user_scripts/global_model_update/material_finder/gen_specimen_data.py: get_specimen_mesh_from_inp_file, elem_type_abaqus_to_fetorch", "src/hookeai/simulators/links/utilities/links_data_to_adimu.py: write_adimu_mesh_data_file"]}
{"id": "C82", "title": "A Links input file holds the simulation it was written for", "statement": "Whatever mesh, boundary conditions and title are given, the input file written for Links can be read back: nodes, elements, element type, prescribed displacements and dimension are those of the simulation, and the specimen mesh derived from it is the same mesh.", "quantifier": "all meshes, element types, titles, phases and boundary conditions", "why_tests_cant": "a fixed-width text format is right for the widths used in tests only; titles and labels of any length", "anchors": ["src/hookeai/simulators/links/links.py: _write_links_input_data_file, _get_links_elem_type_data", "src/hookeai/simulators/links/utilities/links_data_to_adimu.py: extract_nodes_data, extract_elements_data, extract_boundary_conditions, gen_adimu_data_from_links"]}
{"id": "C83", "title": "The specimen history read from its files is the history of the simulation", "statement": "The displacements, reaction forces and Dirichlet flags read from the history files are those of the node data of the simulation, in the order of time whatever the order of the directory; flags mark exactly the constrained degrees of freedom and sets get distinct positive labels; files of other sizes are refused; updating the flags changes nothing else; the sets do not depend on a particular specimen.", "quantifier": "all numbers of time steps, nodes and constraints, all directory orders and further files", "why_tests_cant": "all orders of a directory (lexicographic order differs from time order from ten steps on) and all sets of constraints", "anchors": ["src/hookeai/simulators/links/utilities/links_data_to_adimu.py: collect_node_data_files_from_links_data, write_adimu_mesh_hist_data_files, generate_pointwise_sets, generate_dirichlet_sets, update_adimu_mesh_hist_data_files_dirichlet", "src/hookeai/user_scripts/global_model_update/material_finder/gen_specimen_data.py: get_specimen_history_paths, get_specimen_numerical_data"]}
{"id": "C84", "title": "A Links load history takes the steps that were asked for", "statement": "The incrementation written for a monotonic, cyclic or polynomial loading has as many lines as its header says; the total load factor ramps from zero to one and then back and forth between one and the lowest level with equal increments, with fewer null increments at the end than there are ramps; it stays within the bounds; too few increments are refused; a polynomial loading is the interpolant of the control points scaled into the bounds; the printed factors sum up to the load up to the printing precision.", "quantifier": "all numbers of increments and repetitions, all loading types and control points", "why_tests_cant": "integer divisions leave remainders for every number of increments; rounding accumulates with the length of the history", "anchors": ["src/hookeai/simulators/links/links.py: _get_links_loading_incrementation"]}
{"id": "C85", "title": "The results returned from a Links simulation are those of that simulation", "statement": "The input file of a simulation goes to a directory that did not exist before and has the name of the simulation; given parameters replace the defaults; a run is successful exactly when its screen file reports completion; the node results are the columns of the node data files in the order of time and the global results those of the history file, for every number of nodes and time steps.", "quantifier": "all parameters, screen files, result files, node counts, time steps and directory orders", "why_tests_cant": "all files that a simulation may leave behind, including those of an earlier run", "anchors": ["src/hookeai/simulators/links/links.py: generate_input_data_file, _get_links_default_input_params, run_links_simulation, read_links_simulation_results"]}
{"id": "C86", "title": "The vectorised forward propagation gives the loss of the sequential one", "statement": "For a mesh of one element type and any sequence model, the vectorised forward propagation succeeds exactly when the sequential one does, with the same force equilibrium loss; a model with data scalers is used as the physical model it stands for; the stored history holds the strain and the stress of every element, Gauss point and time; meshes with several element types or materials, finite strains and empty histories are refused.", "quantifier": "all meshes, displacements, sequence models, numbers of time steps, both dimensions", "why_tests_cant": "equality of two programs over all meshes and models", "anchors": ["src/hookeai/material_model_finder/model/material_discovery.py: vforward_sequential_element, vcompute_elements_internal_forces_hist, vcompute_element_internal_forces_hist, vcompute_local_internal_forces_hist, vrecurrent_material_state_update, recurrent_material_state_update", "src/hookeai/material_model_finder/data/specimen_data.py: get_batched_mesh_configuration_hist"]}
{"id": "C87", "title": "The averaged volumetric strain operator keeps the deviator and averages the trace", "statement": "The strain of the averaged operator (B-bar) has the deviator of the local strain and, at every Gauss point, the volume average of the trace over the element; uniform strains are unchanged (patch test), in three dimensions and in plane strain.", "quantifier": "all elements, quadrature rules, coordinates, displacements and Gauss points", "why_tests_cant": "an identity for all elements and displacements; the code is switched off by a constant and never runs in a test", "anchors": ["src/hookeai/material_model_finder/model/material_discovery.py: vcompute_element_vol_grad_hist, vcompute_local_vol_grad_operator_hist, vcompute_local_strain_vbar, vcompute_local_vol_sym_gradient, vcompute_local_dev_sym_gradient"]}
{"id": "C88", "title": "Mean prediction metrics are means over exactly the samples of the directory", "statement": "The number of samples is the number of prediction files; for each requested metric and feature the result is the mean over those samples of the root mean squared error, or of its ratio to the mean absolute ground truth; the order of the directory, repeated metrics and other files do not matter; files of other names are not samples; unknown metrics and directories without samples are refused; the normalised metric is a number.", "quantifier": "all directories, listing orders, numbers of samples, features and time steps, all lists of metrics", "why_tests_cant": "all orders of a directory listing and all sets of files; sums over any number of samples", "anchors": ["src/hookeai/utilities/output_prediction_metrics.py: get_samples_prediction_files, compute_mean_prediction_metrics, compute_directory_prediction_metrics"]}
{"id": "C89", "title": "The file of mean prediction metrics can be read back", "statement": "Whatever processes are written to the file one after the other, reading it returns, for a number of samples, the metrics printed for the process with that number, to the printed digits, or an error if there is none; every process written can be read; the convergence data have one row per process in increasing order of the training set size, with the metrics of that process, and leave out processes of other names.", "quantifier": "all numbers of processes, labels, metrics and values, all requested numbers of samples", "why_tests_cant": "a text format is right for the labels and numbers used in tests only", "anchors": ["src/hookeai/utilities/output_prediction_metrics.py: write_mean_metrics_results_file, read_mean_metrics_results_file, format_mean_metrics_results, plot_prediction_metrics_convergence"]}
{"id": "C90", "title": "Prediction arrays and time series pair each prediction with its own ground truth", "statement": "The array of a component holds, sample by sample in the requested order and time by time, the ground truth and the prediction of that component; the order of the directory only reorders the samples; the mean squared difference over an array is the mean of the samples'; time series hold for every requested sample and no other the times, the ground truth and the prediction of every model in the order of the model numbers; missing files, samples, ground truth and unknown types are refused; accumulated plastic strains can be collated.", "quantifier": "all directories, listing orders, lists of samples, numbers of components, time steps and models", "why_tests_cant": "all orders of directory listings and all numbers of models, samples and components", "anchors": ["src/hookeai/model_architectures/materials/process_predictions.py: build_prediction_data_arrays, build_time_series_predictions_data", "src/hookeai/model_architectures/procedures/model_prediction.py: load_sample_predictions"]}
{"id": "C91", "title": "Local strain-stress paths of the finder are those of the chosen elements in both modes", "statement": "Each stored path holds, time by time, the strain and stress components of one Gauss point of one chosen element; all Gauss points of all chosen elements are stored, element by element; the sequential and the vectorised mode store the same data set for the same choice of elements; labels outside the mesh are refused.", "quantifier": "all meshes, numbers of Gauss points and times, constitutive models without scalers, strains, and lists of element labels", "why_tests_cant": "all selections of elements in all orders and all models", "anchors": ["src/hookeai/material_model_finder/model/material_discovery.py: build_element_local_samples, build_elements_local_samples, forward_sequential_element, recurrent_material_state_update, vrecurrent_material_state_update"]}
{"id": "C92", "title": "Specimen data of the finder are checked and set as a whole, and reactions are exported by set", "statement": "Setting a specimen succeeds exactly when its Dirichlet codes suit the loss type, the force bounds are given with one entry per dimension if forces are normalised, and the time weights are one per time; it leaves that specimen with its bounds, scaling factor and weights (ones by default); a refused call leaves the finder unchanged; the exported column SET i is the net force of set i at every time, and the columns add up to the total force.", "quantifier": "all finders, specimens, codes, bounds, weights and force histories", "why_tests_cant": "all code arrays and call sequences", "anchors": ["src/hookeai/material_model_finder/model/material_discovery.py: set_specimen_data, set_fitted_force_data_scalers, compute_dirichlet_sets_reaction_hist, store_dirichlet_sets_reaction_hist", "src/hookeai/material_model_finder/data/specimen_data.py: check_dirichlet_bc_mesh_hist"]}
{"id": "C93", "title": "Collected parameters of the finder: one label per parameter, values within the bounds of the label", "statement": "The collected dictionary lists every explicit parameter of every material model and submodel once with its physical value; the collected bounds carry the same labels in the same order; after bounds are enforced each value lies within the bounds of its label; different parameters never share a label.", "quantifier": "all numbers of models and submodels, names, parameters, bounds and values", "why_tests_cant": "all names and collections of models", "anchors": ["src/hookeai/material_model_finder/model/material_discovery.py: get_detached_model_parameters, get_model_parameters_bounds, enforce_parameters_bounds"]}
{"id": "C94", "title": "The vectorised Lou-Zhang-Yoon update is the standard one", "statement": "Whenever LouZhangYoonVMAP.state_update reports success, LouZhangYoon.state_update returns the same state for the same material, increment and previous state (with constant yield parameters when they are assumed constant); the returned state is the elastic trial state, or solves the equations of the return to the surface or to the apex to the tolerance, and failures are reported instead of raised; a null increment and every admissible yield parameter are handled alike by both classes.", "quantifier": "Every linear solver, hardening laws, elastic constants, previous state, increment and problem type; the three-dimensional statement over every symmetric elastic strain and increment.", "why_tests_cant": "Agreement ranges over all states, laws and iterates of two different Newton loops; tests compare a few load paths of one parameter set, and never the branch that torch.where discards.", "anchors": ["src/hookeai/simulators/fetorch/material/models/vmap/lou.py: LouZhangYoonVMAP.state_update, _plastic_step, _plastic_step_cone, _plastic_step_apex", "src/hookeai/simulators/fetorch/material/models/standard/lou.py: LouZhangYoon.state_update"]}
{"id": "C95", "title": "Meshes survive the conversion between Abaqus and Links input files", "statement": "abaqus_inp_to_links_dat writes the nodes, elements and prescribed displacements that the specimen reader finds in the same file; the file written by links_dat_to_abaqus_inp is converted to the same mesh and displacements; every mesh the specimen reader accepts can be converted, and every converted file can be converted back; constraints refer to nodes and degrees of freedom of the mesh.", "quantifier": "Every list of lines of an Abaqus file, number of dimensions up to three, number format and reader; every mesh, element type and table of prescribed displacements.", "why_tests_cant": "The statement ranges over all files and relates three independent line parsers; tests convert one mesh.", "anchors": ["src/hookeai/simulators/links/utilities/links_dat_to_inp.py: links_dat_to_abaqus_inp, abaqus_inp_to_links_dat"]}
{"id": "C96", "title": "Uniaxial specimens are held on their symmetry planes and loaded on their top face", "statement": "Every node of the specimen is prescribed exactly the components of the faces it lies on (x and z null on the symmetry planes, y null at the base and equal to the load at the top); the written section lists these nodes in order and is read back as the same prescriptions; the reaction group holds the nodes with a non-null prescribed displacement, whatever the sign of the load.", "quantifier": "Every mesh of three coordinates per node, top coordinate, load, number format and reader.", "why_tests_cant": "The twelve cases are ordered by corners, edges and faces; a test covers a few nodes of one specimen in tension.", "anchors": ["src/hookeai/simulators/links/utilities/links_specimen_dirichlet.py: get_specimen_node_dbc, build_specimen_dbc, write_links_dirichlet_bc_file, read_links_nodes_coords_mesh"]}
{"id": "C97", "title": "Material sections of Links input files describe the materials", "statement": "The section of each material phase states the model name and all its descriptors in the order of the model, missing descriptors and unknown models are refused, and no line of a section is mistaken for another section of the file; the hardening table has the requested number of equally spaced points, and its linear interpolation approximates the hardening law.", "quantifier": "Every descriptor dictionary, phase number, number format, hardening law and number of hardening points; every accumulated plastic strain.", "why_tests_cant": "The approximation is a bound over all laws and strains; the read-back ranges over all number formats that leave a blank.", "anchors": ["src/hookeai/simulators/links/models/links_elastic.py: LinksElastic._format_material_descriptors", "src/hookeai/simulators/links/models/links_von_mises.py", "src/hookeai/simulators/links/models/links_drucker_prager.py", "src/hookeai/simulators/links/models/links_lou.py", "src/hookeai/simulators/links/links.py: write_links_input_data_file"]}
{"id": "C98", "title": "Plotted yield surfaces are those of the constitutive models", "statement": "The pi-stress coordinates are an isometry with the pressure on the third axis; the plotted von Mises, Drucker-Prager and Lou-Zhang-Yoon functions are those of the material models, so that models with the same yield stress and no friction share one surface and the unloaded state lies inside; each function is isotropic and keeps its domain when normalised; unknown models are refused; the surface fits in the plotted grid.", "quantifier": "Every pi-stress point, principal stresses, positive yield stress, friction angle, yield parameter, model name and parameter dictionary.", "why_tests_cant": "The shapes are statements over the whole stress space; a figure shows one set of parameters.", "anchors": ["src/hookeai/miscellaneous/materials/plot_yield_surface.py: yield_function, yf_von_mises, yf_drucker_prager, yf_lou_zhang_yoon, get_stress_invariants, pi_to_principal, batched_yield_function, plot_yield_surface"]}
{"id": "C99", "title": "Reaction histories are shared out by constraint set, and labels are copied between specimen files", "statement": "build_dirichlet_sets_reaction_history gives one set per direction and constraint code, with distinct labels, the nodes of that code at each time and their net reaction, so that the sets add up to the total reaction; every valid selection of nodes (all by default) is plotted from the rows of those nodes and other selections are refused; copy_dbc_labels gives every node of the target the labels of the same node of the source, leaves all other columns unchanged, and leaves the files as they were when it is refused.", "quantifier": "Every number of nodes, dimensions and times, code and force histories, node selection, and pair of source and target histories.", "why_tests_cant": "Partition and totals range over all code arrays; the copies over all tables and row orders.", "anchors": ["src/hookeai/user_scripts/global_model_update/utilities/process_specimen_data.py: build_dirichlet_sets_reaction_history, compare_reaction_forces_history, plot_nodes_displacement_history, copy_dbc_labels"]}
{"id": "C100", "title": "Training of the material model finder: its histories, best state and result", "statement": "A training runs the requested epochs unless the parameters converge first; the histories hold the loss, the learning rate and the parameters of every epoch, within the enforced bounds; the best state on file is the one with the least loss among all epochs and its epoch is the one returned, NaN losses being passed over; the records of losses and learning rates are read back as they were saved.", "quantifier": "Every model, loss, update, learning rate schedule, convergence check, saving frequency and number of epochs.", "why_tests_cant": "The loop is unbounded in the number of epochs and the claims relate its histories to all iterates; a test trains one model for a few epochs with finite losses.", "anchors": ["src/hookeai/material_model_finder/train/training.py: train_model, save_parameters_history, save_best_parameters", "src/hookeai/model_architectures/procedures/model_training.py: save_loss_history, read_loss_history_from_file, read_lr_history_from_file"]}
{"id": "C101", "title": "Options of the random material patch are applied as documented", "statement": "The dictionaries of corner conditions, edge orders and edge ranges act on the labelled corners and edges and on no other, values of another type or for other labels are refused; without conditions a random minimal set of constraints is prescribed, which prevents rigid motions; edges that share their corners coincide in the deformed patch and keep the prescribed displacements; rotation angles lie between -180 and 180 degrees and give the rotation between the vectors, and the mean angle that of the pairs.", "quantifier": "Two and three dimensions, every dictionary, every shuffle of the constraints, every deformed edge and every pair of vectors.", "why_tests_cant": "Quantifies over all dictionaries, permutations and vectors; tests use one or two dictionaries.", "anchors": ["src/hookeai/data_generation/spdg/patch_generator.py: _build_corners_bc, _build_edges_poly_orders, _build_edges_disp_range, _set_edges_attributes, _get_mesh_boundary_nodes_disps", "src/hookeai/data_generation/spdg/patch.py: rotation_angle_2d, mean_rotation_angle_2d"]}
{"id": "C102", "title": "Nested parameter dictionaries hold every parameter of a model once, at its dotted path", "statement": "get_model_parameter_dict stores every named parameter at the nested path of its name, stores nothing else, and never loses or replaces another parameter; the name is recovered by joining the keys with dots.", "quantifier": "Every list of named parameters, of any depth.", "why_tests_cant": "The nesting is recursive and unbounded; tests use one small module.", "anchors": ["src/hookeai/material_model_finder/utilities/torch_parameters.py: set_parameter_in_dict, get_model_parameter_dict"]}
{"id": "C103", "title": "The load factor history read from a Links file is the loading of the file", "statement": "plot_links_tfact_hist finds the loading section, gives after k increments the sum of the first k factors at time k/n, and reads back every loading that the simulator writes; a section with other than the announced number of increments is refused or keeps the last total; other lines of the file do not matter; scaling multiplies the totals only.", "quantifier": "Every list of lines, number format and reader, number of increments, list of factors and scale.", "why_tests_cant": "A statement over all texts and loadings; tests read one file.", "anchors": ["src/hookeai/simulators/links/utilities/links_plot_tfact.py: plot_links_tfact_hist, gen_links_loading_incrementation_file, scale_tfact_hist", "src/hookeai/simulators/links/links.py: _get_links_loading_incrementation"]}
{"id": "C104", "title": "The temperature and composition dependent material is well posed over the whole admissible range", "statement": "get_model_parameters refuses exactly the other models and the values out of bounds, and otherwise returns positive elastic constants that satisfy isotropy with a Poisson's ratio of a stable solid, and a hardening table with strictly ascending strains, increasing positive yield stresses and the values of the linear law; the dependencies of validation and testing samples are drawn between the two neighbours of the grid value and always have a material.", "quantifier": "Every real temperature and composition, every plastic strain, every grid and every draw.", "why_tests_cant": "Positivity over a rectangle of real parameters and of an exponential expression; tests evaluate a few grid points.", "anchors": ["src/hookeai/user_scripts/complete_pipelines/local_model_update.py: get_model_parameters, polynomial, generate_material_data"]}
{"id": "C105", "title": "The material data sets of the local model update have the previewed sizes and the asked composition", "statement": "generate_material_data produces for every pair of temperature and composition and every data set type the asked number of samples, by default all on random strain paths, at the grid values for training and between the neighbouring values otherwise; assemble_material_datasets collects for every type exactly the samples of that type, with no loss and no repetition, keeps the asked fraction of every file, and saves every type in its own directory; the sizes agree with the preview.", "quantifier": "Every grid, every dictionary of sizes and ratios, every random draw, every pattern of failed trials, every selection and permutation, and every list of types.", "why_tests_cant": "Involves random draws, permutations and failures and grids of any size; tests use one small grid.", "anchors": ["src/hookeai/user_scripts/complete_pipelines/local_model_update.py: generate_material_data, assemble_material_datasets, preview_material_datasets_sizes, set_dependencies_dir, set_dataset_type_dir, get_dataset_basename"]}
{"id": "C106", "title": "The uniaxial stress path of the model evaluation is in uniaxial stress", "statement": "get_uniaxial_stress_path returns a strain path with the prescribed axial strains and no shear, and the stress path of the material along it, in which the lateral stresses vanish up to the tolerance at every step; for linear elasticity it is the path of Poisson's ratio and Young's modulus; every data set of the evaluation is stored under its own key.", "quantifier": "Every material model (von Mises or recurrent), every causal dependence on the strain history, every prescribed path of any length, every tolerance and number of iterations, and all temperatures and compositions.", "why_tests_cant": "A Newton iteration inside a loop over a path with history dependence; tests compare one material with one curve.", "anchors": ["src/hookeai/user_scripts/complete_pipelines/evaluate_gru_model.py: get_uniaxial_stress_path, forward_material_model, build_gru_features_in, main"]}
{"id": "C107", "title": "k-fold cross-validation trains and tests on complementary folds of the data set", "statement": "kfold_cross_validation splits the data set into k folds of almost equal size, trains a model on the complement of every fold, and returns the training and validation losses of every fold in order; it refuses exactly the impossible numbers of folds.", "quantifier": "Every data set, number of folds, shuffle, training and prediction function.", "why_tests_cant": "Quantifies over all sizes, permutations and models; the function is never called by a test with every verbosity.", "anchors": ["src/hookeai/model_architectures/rnn_base_model/train/cross_validation.py: kfold_cross_validation"]}
{"id": "C108", "title": "Uncertainty quantification evaluates every realisation of the model once, in order", "statement": "perform_model_uq trains and predicts with every realisation in its own directory; gen_model_uq_plots collects the average prediction loss written in the summary of every realisation, in the numerical order of the realisations, and the prediction of every realisation as a column against the common time.", "quantifier": "Every number of realisations, order of directory entries, loss value, sample and prediction type.", "why_tests_cant": "Quantifies over directory contents, orders and real losses; tests use one directory with nonzero losses.", "anchors": ["src/hookeai/user_scripts/local_model_update/rnn_material_model/uncertainty_quantification.py: perform_model_uq, gen_model_uq_plots, plot_prediction_loss_uq, plot_time_series_uq", "src/hookeai/model_architectures/procedures/model_prediction.py: write_prediction_summary_file", "src/hookeai/ioput/iostandard.py: write_summary_file"]}
{"id": "C109", "title": "Generated material patches become a data set of local strain-stress paths", "statement": "generate_random_patches simulates every patch in its own directory and reuses stored patches when asked; build_local_paths_dataset finds all the patches generated under a name, in order, converts their node data, and returns the local paths of all of them.", "quantifier": "Every number and name of patches, generator, simulation, order of directory entries, number of steps and nodes.", "why_tests_cant": "The two scripts communicate through directory names, file names and column layouts which no test exercises together.", "anchors": ["src/hookeai/user_scripts/synthetic_data/gen_random_specimen.py: generate_random_patches, set_material_patch_dir, perform_links_simulation", "src/hookeai/user_scripts/synthetic_data/build_local_paths_dataset.py: build_local_paths_dataset, get_patch_analysis_dirs, gen_patch_formatted_data, gen_patch_data", "src/hookeai/simulators/links/utilities/links_nodedata_to_csv.py: links_node_output_to_csv"]}
{"id": "C110", "title": "Force-displacement curves and Gauss point paths are those of the simulation", "statement": "The force-displacement script pairs the displacement of the reference node with the reaction of the node group of the same step, refuses nodes that do not exist and numbers of reactions other than the number of steps; extract_sample_path recovers the strain and stress tensors of a Gauss point, halving the engineering shears, in two and three dimensions.", "quantifier": "Every number of steps, nodes and reaction groups, node label, direction, order of directory entries, and every line of the Gauss point files.", "why_tests_cant": "Quantifies over all histories and labels, including those at the border of the checks; no test covers the scripts.", "anchors": ["src/hookeai/simulators/links/utilities/links_plot_force_disp.py: main", "src/hookeai/simulators/links/utilities/links_out_to_dataset.py: build_dataset, extract_sample_path"]}
{"id": "C111", "title": "The file found by a regular expression is the only one meant", "statement": "find_unique_file_with_regex returns the unique file of the directory whose name matches the patterns, in order of preference, and says when there is none; the patterns used for data sets accept exactly the names under which save_dataset stores them, so that the data set last saved is the one loaded.", "quantifier": "Every regular expression built from classes, concatenation, alternatives, repetition and anchors; every directory listing and order; every base name and number of samples.", "why_tests_cant": "Quantifies over all expressions, listings and their order, which os.listdir leaves arbitrary; tests have directories with one file.", "anchors": ["src/hookeai/ioput/iostandard.py: find_unique_file_with_regex", "src/hookeai/time_series_data/time_dataset.py: save_dataset", "src/hookeai/user_scripts/complete_pipelines/local_model_update.py: find_dataset_file"]}
{"id": "C112", "title": "Learning rates follow the schedule and a resumed training continues the previous one", "statement": "get_learning_rate_scheduler gives decaying rates, from the initial rate, at every epoch and refuses what it does not know; train_model started from a saved state continues: same rates, optimizer state, initial state file and best state as if it had not been interrupted.", "quantifier": "Every scheduler type and arguments, number of epochs, optimizer step, loss function, saving interval and state to resume from.", "why_tests_cant": "Quantifies over all epochs, optimizers and histories of saved files; tests run a few epochs once.", "anchors": ["src/hookeai/utilities/optimizers.py: get_pytorch_optimizer, get_learning_rate_scheduler", "src/hookeai/model_architectures/rnn_base_model/train/training.py: train_model", "src/hookeai/model_architectures/procedures/model_state_files.py: save_model_state, load_model_state", "src/hookeai/model_architectures/procedures/model_training.py: save_training_state"]}
{"id": "C113", "title": "Convergence plots and ground truth comparisons show the results of the models", "statement": "The rows of the convergence plots pair the training size with the loss, parameter or realisations of the same model, for all models; the comparison plots show all the values of every process, a band that holds exactly the predictions within the given relative error, and a coefficient of determination that is 1 exactly for perfect predictions and does not depend on units or normalization.", "quantifier": "Every number of models, realisations, samples and processes, all sizes and all real values.", "why_tests_cant": "Quantifies over all real data, including constant data and unequal numbers of realisations; figures are not compared in tests.", "anchors": ["src/hookeai/model_architectures/procedures/convergence_plots.py: plot_prediction_loss_convergence, plot_best_parameters_convergence, plot_time_series_convergence, plot_prediction_loss_convergence_uq", "src/hookeai/model_architectures/procedures/model_prediction.py: plot_truth_vs_prediction", "src/hookeai/ioput/plots.py: scatter_xy_data"]}
{"id": "C114", "title": "The history of a hyperparameter optimization shows the objectives of its jobs", "statement": "Every job returns and records the objective of the chosen process; plot_optimization_history collects the metric recorded by every job of every process, in the order of the jobs, refuses incomplete processes, names the best job and draws the best value so far.", "quantifier": "Every configuration, loss, number of jobs and processes, order of directory entries and metric value.", "why_tests_cant": "Quantifies over directory orders, arbitrary configurations and several processes; no test runs an optimization.", "anchors": ["src/hookeai/model_architectures/rnn_base_model/optimization/hydra_optimization.py: hydra_optimize_gru_model", "src/hookeai/model_architectures/rnn_base_model/optimization/hydra_optimization_plots.py: plot_optimization_history", "src/hookeai/ioput/iostandard.py: write_summary_file"]}
{"id": "C115", "title": "A hybridized model is the one described by its arguments", "statement": "set_hybridized_model builds the model of the given class from its file or its arguments, sets its state and both data scalers and its position in the hybrid model; the hybridization schemes of the training script compose a GRU and a material layer as documented.", "quantifier": "Every class, file, arguments, scalers and indices, and every hybridization scheme.", "why_tests_cant": "Quantifies over all classes and combinations of optional arguments; no test builds the hybridization schemes.", "anchors": ["src/hookeai/model_architectures/hybrid_base_model/model/hybridized_model.py: set_hybridized_model", "src/hookeai/user_scripts/local_model_update/hybrid_material_model/train_model.py: set_hybridized_gru_model, set_hybridized_rcm_model, set_hybridized_material_layer, perform_model_standard_training"]}
{"id": "C116", "title": "The features option prepares the features that the model expects", "statement": "For each features option, training and prediction scripts give every sample the input and output features of its description, with the widths given to the model, leave the paths of the data set unchanged, and the learning rate schedule of the script decreases from the initial to the final rate.", "quantifier": "Every features option, data set, component order, path length and sample; all rates and numbers of epochs.", "why_tests_cant": "Quantifies over all data sets, times and options; the scripts are not tested.", "anchors": ["src/hookeai/user_scripts/local_model_update/rnn_material_model/train_model.py: perform_model_standard_training", "src/hookeai/user_scripts/local_model_update/rnn_material_model/predict.py: perform_model_prediction"]}
{"id": "C117", "title": "Scripts on directories of case studies touch exactly the files they name", "statement": "process_case_study_dirs removes exactly plots, models or sample predictions; build_noise_directory moves every noisy data set under its noise case and shares the testing data set; the splitter stores the subsets beside the data set; element_paths_indices lists the paths of the given element.", "quantifier": "Every file system, number of case studies, data sets and noise cases, depth of directories, path and element.", "why_tests_cant": "Quantifies over all directory trees; the scripts delete files and are not tested.", "anchors": ["src/hookeai/miscellaneous/file_processing/process_case_study_dirs.py", "src/hookeai/miscellaneous/noisy_data/build_noise_directory.py", "src/hookeai/miscellaneous/dataset_processing/tsdataset_splitter.py", "src/hookeai/miscellaneous/other/element_paths_indices.py"]}
{"id": "C118", "title": "Denoising the displacement files changes displacements only, node by node", "statement": "denoise_displacements_noise writes every time step file again with the displacements of every node and component replaced by their denoised history, zero at the first step, and leaves the rest and the original data as they are.", "quantifier": "Every directory, order of its files, numbers of nodes, steps and cycles, window, filter coefficients and real data.", "why_tests_cant": "Quantifies over all histories and directory orders; the script is not tested.", "anchors": ["src/hookeai/miscellaneous/noisy_data/denoise_disp_noise_csv.py: denoise_displacements_noise", "src/hookeai/utilities/data_denoisers.py: Denoiser"]}
{"id": "C119", "title": "A discretized hardening function reproduces the function", "statement": "The table of function_discretizer, used as piecewise linear hardening law, is exact at its points and has an error between them that vanishes with the number of points; compare_hardening_laws shows the yield stress of each law under its name.", "quantifier": "Every function, interval, number of points, real argument, hardening parameters and list of laws.", "why_tests_cant": "Quantifies over all reals and functions; a test compares a few points.", "anchors": ["src/hookeai/miscellaneous/other/function_discretizer.py", "src/hookeai/miscellaneous/materials/compare_hardening_laws.py: compare_hardening_laws", "src/hookeai/simulators/fetorch/material/models/standard/hardening.py: PiecewiseLinearIHL, NadaiLudwikIHL"]}
{"id": "C120", "title": "Converting a data set file keeps its samples", "statement": "convert_dataset.py and convert_to_tsdataset.py write every data set in the other format with the same samples in the same order, touch no other file, can be undone and repeated, and a data set that has moved can be given its new directory.", "quantifier": "Every file system, order of its walk, data set kind, number and type of samples, directory and format.", "why_tests_cant": "Quantifies over all directory trees and data sets; the scripts overwrite their sources and are not tested.", "anchors": ["src/hookeai/miscellaneous/dataset_processing/convert_dataset.py", "src/hookeai/miscellaneous/dataset_processing/convert_to_tsdataset.py", "src/hookeai/time_series_data/time_dataset.py: save_dataset, load_dataset, TimeSeriesDataset, TimeSeriesDatasetInMemory"]}
{"id": "C121", "title": "Comparison figures show the stress of each model under its name", "statement": "compare_material_model_response and plot_models_stress_prediction show, for every stress component, the curve of each model and of the reference under its own name, and a model that fails is not shown as if it predicted.", "quantifier": "Every list of models, names, component order, strain path, reference, number of times and predictions.", "why_tests_cant": "Quantifies over all models and component orders; only figures are produced and nothing tests them.", "anchors": ["src/hookeai/miscellaneous/materials/compare_material_models.py: compare_material_model_response", "src/hookeai/miscellaneous/file_processing/plot_prediction_files.py: plot_models_stress_prediction", "src/hookeai/user_scripts/synthetic_data/gen_response_dataset.py: compute_stress_path"]}
{"id": "C122", "title": "Exported strain paths come back from their tables", "statement": "The tables written by export_strain_paths.py hold the generated paths, and read_csv_response_dataset.py reads from the completed tables exactly these paths, in order, and nothing else of the directory.", "quantifier": "Every number of dimensions, number of times, list of paths, base name, completed stresses and directory listing.", "why_tests_cant": "Quantifies over all paths and directory listings; the scripts have no tests and their names depend on patterns.", "anchors": ["src/hookeai/miscellaneous/other/export_strain_paths.py", "src/hookeai/miscellaneous/dataset_processing/read_csv_response_dataset.py", "src/hookeai/user_scripts/synthetic_data/gen_response_dataset.py: gen_response_dataset_from_csv"]}
{"id": "C123", "title": "Convergence figures of noisy data attribute each loss to its noise case and size", "statement": "generate_convergence_plots of the noisy convergence analysis draws for each noise case the mean and range of the losses of that case's models, under the label of the case and at the size of the training data set of each model.", "quantifier": "Every list of noise cases, training sizes, labels, number of realisations and losses.", "why_tests_cant": "Quantifies over all grids and losses; the table is split and stacked by position and only a figure is produced.", "anchors": ["src/hookeai/user_scripts/convergence_analyses/plot_noisy_convergence_analysis.py: generate_convergence_plots", "src/hookeai/user_scripts/convergence_analyses/plot_noisy_convergence_analysis.py: plot_prediction_loss_convergence_uq", "src/hookeai/user_scripts/convergence_analyses/plot_noisy_convergence_analysis.py: scatter_xy_data_noise_cases"]}
{"id": "C124", "title": "A local model update leaves its realisations and nothing half done", "statement": "perform_material_model_updating yields the asked realisations with their predictions, keeps the data sets and removes its working directories, and an update that cannot be done leaves earlier results as they were; the noisy script does this for every case.", "quantifier": "Every content of the case directories, number of realisations, training and prediction function, plots and list of cases.", "why_tests_cant": "Quantifies over all directory states and failures in the middle of a run; each run trains networks, so tests never reach the failing branches.", "anchors": ["src/hookeai/user_scripts/complete_pipelines/local_model_update.py: perform_material_model_updating", "src/hookeai/user_scripts/local_model_update/rnn_material_model/noisy_uncertainty_quantification.py", "src/hookeai/user_scripts/local_model_update/rnn_material_model/uncertainty_quantification.py: perform_model_uq"]}
{"id": "C125", "title": "The boundary ring of a patch is its boundary, and inverted patches are rejected", "statement": "_build_boundary_coords_array yields the closed ring of boundary nodes in the documented order, _get_patch_centroid its centroid, _is_admissible_simulation accepts no inverted patch, and get_mesh_connected_nodes lists the pairs of nodes connected by element edges.", "quantifier": "Every number and position of edge nodes, deformation of the edges, rigid motion and nodes matrix.", "why_tests_cant": "Quantifies over all deformations and node numbers; the tests of the patch generator check only that a patch is generated.", "anchors": ["src/hookeai/data_generation/spdg/patch_generator.py: _build_boundary_coords_array, _get_patch_centroid, _is_admissible_simulation", "src/hookeai/data_generation/spdg/patch.py: get_mesh_connected_nodes"]}
{"id": "C126", "title": "A passed check of the shape functions means correct shape functions", "statement": "check_shape_functions_properties passes for every element of the library, and an element for which it passes has shape functions that are one at their node and zero at the others, sum to one and have derivatives that sum to zero in each direction.", "quantifier": "Every element, and every pair of random points.", "why_tests_cant": "Quantifies over all elements and points; the check itself is a test at two random points.", "anchors": ["src/hookeai/simulators/fetorch/element/type/interface.py: check_shape_functions_properties"]}
{"id": "C127", "title": "The preview of a data set pruning shows the iterations of the run", "statement": "preview_pruning_iterations prints, for the parameters of a pruning, the iterations that prune_time_series_dataset performs, with the sizes of their development, training, validation and unused data sets.", "quantifier": "Every set of pruning parameters, size of the full data set, random permutations and losses.", "why_tests_cant": "Relates two loops over all parameters; the run trains a network in each iteration, so the two are never compared.", "anchors": ["src/hookeai/miscellaneous/pruning/pruning_dataset.py: preview_pruning_iterations, prune_time_series_dataset, perform_pruning_step, get_n_prun_sample"]}
{"id": "C128", "title": "The pruned samples are those of the smallest loss", "statement": "read_samples_loss_from_dir returns the loss of every sample in the order of the sample numbers, and perform_pruning_step prunes the samples of the testing data set with the smallest losses.", "quantifier": "Every content and listing order of the prediction directory, number of pruned samples and losses.", "why_tests_cant": "Quantifies over all directory listings (the order of os.listdir is arbitrary) and losses.", "anchors": ["src/hookeai/miscellaneous/pruning/pruning_dataset.py: read_samples_loss_from_dir, perform_pruning_step"]}
{"id": "C129", "title": "The record, summary and plots of a pruning show its iterations", "statement": "prune_time_series_dataset records for every iteration the sizes of its data sets and its testing performance; write_summary_file and plot_pruning_iterative_data show these as shares of the full data set, with the performance threshold relative to the first iteration.", "quantifier": "Every pruning run, list of testing types, loss and error of the trained models, and plot options.", "why_tests_cant": "Quantifies over all runs; a run trains a network in each iteration, so tests never produce a record.", "anchors": ["src/hookeai/miscellaneous/pruning/pruning_dataset.py: prune_time_series_dataset, write_summary_file, plot_pruning_iterative_data"]}
{"id": "C130", "title": "Stress paths in the principal stress space are shown with their own values", "statement": "plot_stress_space_metrics shows for every stress path its sorted principal stresses, its pi stresses, its stress invariants, its triaxiality and its Lode parameter (between -1 and 1), for paths of any lengths and in any units.", "quantifier": "Every list of paths of 3D stress tensors with real eigenvalues, and every random order of the principal stresses.", "why_tests_cant": "Quantifies over all real stress states; the bound of the Lode parameter is an algebraic inequality.", "anchors": ["src/hookeai/user_scripts/synthetic_data/gen_response_dataset.py: plot_stress_space_metrics, compute_stress_invariants"]}
{"id": "C131", "title": "Training plots show the recorded histories", "statement": "plot_training_loss_history, plot_training_loss_and_lr_history and plot_model_parameters_history show for every process or parameter exactly the recorded value of each epoch, and generate_standard_training_plots shows the losses, validation losses and learning rates of the training record.", "quantifier": "Every number, length and content of histories (including epochs without validation), parameter bounds and training record.", "why_tests_cant": "Quantifies over all histories; the figures are never read back by a test.", "anchors": ["src/hookeai/model_architectures/procedures/model_training.py: plot_training_loss_history, plot_training_loss_and_lr_history, plot_model_parameters_history", "src/hookeai/user_scripts/local_model_update/rnn_material_model/train_model.py: generate_standard_training_plots"]}
{"id": "C132", "title": "Checked hybridized models can be evaluated with their scalers", "statement": "If check_hyb_models_data_scalers passes, the forward propagation of the hybrid model normalises the input and denormalises the output of every hybridized model that works on normalised features with the scalers of that model; otherwise the construction is refused.", "quantifier": "Every list of hybridized models with any presence of the normalisation attributes and scalers, and every input.", "why_tests_cant": "Quantifies over all models and attribute combinations; tests use models without normalisation.", "anchors": ["src/hookeai/model_architectures/hybrid_base_model/model/hybrid_model.py: check_hyb_models_data_scalers, check_model_in_normalized, check_model_out_normalized, forward", "src/hookeai/model_architectures/hybrid_base_model/model/transfer_learning.py: data_scaler_transform"]}
{"id": "C133", "title": "Figures of reaction forces and loss components show the computed histories", "statement": "plot_reaction_forces_history writes for every Dirichlet boundary set one file with the net reaction force at each time, over the time step or over the displacement of the chosen reference node, and refuses a reference that is no node of the mesh; store_force_equilibrium_loss_components_hist stores and shows every component of the loss history.", "quantifier": "Every mesh size, boundary condition codes, forces, displacements, reference node and dimension, and every loss history.", "why_tests_cant": "Quantifies over all specimens and reference nodes; the figures are never read back by a test.", "anchors": ["src/hookeai/user_scripts/global_model_update/utilities/process_specimen_data.py: plot_reaction_forces_history", "src/hookeai/material_model_finder/model/material_discovery.py: store_force_equilibrium_loss_components_hist"]}
{"id": "C134", "title": "Response path figures show the equivalent strain and stress of every path", "statement": "plot_material_response_path shows for every path the components over time and the von Mises equivalent strain and stress at each of its times; plot_state_history shows the values of a state variable over the times of every path and refuses inconsistent histories.", "quantifier": "Every number, length and content of paths, strain and stress tensors, component orders and state variable histories.", "why_tests_cant": "Quantifies over all tensors and paths; the figures are never read back by a test and a uniaxial test of the formula is missing.", "anchors": ["src/hookeai/user_scripts/synthetic_data/gen_response_dataset.py: plot_material_response_path, plot_state_history"]}
{"id": "C135", "title": "Plot functions show every data set with its label, style and range", "statement": "plot_xy_data draws one curve for every pair of columns with its label and a style of its own; plot_xny_data draws the mean of the realisations of every data array with the range from their least to their greatest value, or of 1.96 standard deviations; tex_str removes the formula enclosures from strings when LaTeX is not available; inconsistent arrays and labels are refused.", "quantifier": "Every number, size and content of data arrays (with undefined values), labels and strings.", "why_tests_cant": "Quantifies over all arrays and strings; figures are never read back by a test.", "anchors": ["src/hookeai/ioput/plots.py: plot_xy_data, plot_xny_data, tex_str"]}
{"id": "C136", "title": "Bar charts and box plots show every value once and apart", "statement": "grouped_bar_chart draws for every value of every data set one bar of its height in its group, no bar covers another, the groups have their labels under their bars and the average lines are the means; plot_boxplots draws one box for every column with its label, in one subplot or in a subplot of its own; inconsistent labels and data are refused.", "quantifier": "Every number of groups, data sets, columns and labels, all values, default and given bar widths.", "why_tests_cant": "Quantifies over all data and widths; figures are never read back by a test.", "anchors": ["src/hookeai/ioput/plots.py: grouped_bar_chart, plot_boxplots"]}
{"id": "C137", "title": "Boundary nodes and edge nodes of a patch are those at the ends of the mesh", "statement": "get_boundary_nodes_labels returns once the label of every node at an end of a dimension of the mesh, get_boundary_edges_nodes_labels those on the edges of the patch, the difference is the nodes inside the faces, and a patch with displacements prescribed on any other node is refused.", "quantifier": "Every shape of the mesh, every matrix of labels (with missing nodes), every set of prescribed nodes.", "why_tests_cant": "Quantifies over all mesh sizes and element types; tests build a few small patches.", "anchors": ["src/hookeai/data_generation/spdg/patch.py: FiniteElementPatch.get_boundary_nodes_labels, get_boundary_edges_nodes_labels, plot_deformed_patch"]}
{"id": "C138", "title": "The setup of a pruning checks its data sets and keeps the base data sets", "statement": "setup_pruning_dirs refuses, before changing anything, a pruning directory without the base, training or requested testing data sets and unknown testing types; otherwise it returns the named directories, creates the output directories and keeps everything else.", "quantifier": "Every file system, pruning directory and tuple of testing types (with repetitions).", "why_tests_cant": "Quantifies over all file systems; no test runs the pruning.", "anchors": ["src/hookeai/miscellaneous/pruning/pruning_dataset.py: setup_pruning_dirs"]}
{"id": "C139", "title": "Scatter plots, curves in space and histograms show their data with their labels", "statement": "scatter_xny_data draws every data array with its label and, for every point, the mean of the realisations with an error bar from the least to the greatest; plot_xyz_data draws one labelled curve for every three columns; plot_histogram draws one labelled histogram for every data set; inconsistent arrays and labels are refused.", "quantifier": "Every number, size and content of data arrays and labels.", "why_tests_cant": "Quantifies over all arrays; figures are never read back by a test.", "anchors": ["src/hookeai/ioput/plots.py: scatter_xny_data, plot_xyz_data, plot_histogram"]}
{"id": "C140", "title": "The convexity figure shows the boundary, the parameter paths and the search domain", "statement": "plot_convexity_boundary draws the boundary of the convexity domain, every path of yield parameters with its label and points and, if asked for, arrows from every point to the next one, and the rectangle of the search domain.", "quantifier": "Every boundary, every number and length of paths, every search domain and option.", "why_tests_cant": "Quantifies over all paths; figures are never read back by a test.", "anchors": ["src/hookeai/simulators/fetorch/material/models/standard/lou.py: LouZhangYoon.plot_convexity_boundary"]}
{"id": "C141", "title": "The mean metrics of several processes are computed, saved and shown one by one", "statement": "compute_processes_prediction_metrics returns for every process the number of samples and the mean metrics of its own directory, appends one block for each process to the file in the saving directory and displays the same blocks; a reader of the file gets the current metrics.", "quantifier": "Every number of processes, directory, metric, earlier file, saving directory and option, and every process at which a directory fails.", "why_tests_cant": "Quantifies over all lists of processes, points of failure and contents of the file left by earlier runs.", "anchors": ["src/hookeai/utilities/output_prediction_metrics.py: compute_processes_prediction_metrics, write_mean_metrics_results_file"]}
{"id": "C142", "title": "The figures of a data set show the strains, stresses and state variable of its samples", "statement": "plot_strain_path and generate_dataset_plots draw for the samples of a data set the strain and stress components over the times, each curve with the name of its component, and the state variable of the samples that have it.", "quantifier": "Every data set: number of samples, lengths of paths, components and their orders, samples with and without the state variable.", "why_tests_cant": "Quantifies over all data sets; figures are never read back by a test.", "anchors": ["src/hookeai/data_generation/strain_paths/interface.py: StrainPathGenerator.plot_strain_path", "src/hookeai/user_scripts/synthetic_data/gen_response_dataset.py: generate_dataset_plots"]}
{"id": "C143", "title": "The norms, increments, distributions and pairs of strain paths are those of the paths", "statement": "plot_strain_path shows the norm of every path at its times, the norm of its increments, the distributions of norms, increments and components over all paths, and the paths in the planes of pairs of components.", "quantifier": "Every dimension, valid order of components, number and lengths of paths, and tensor.", "why_tests_cant": "Quantifies over all paths; figures are never read back by a test.", "anchors": ["src/hookeai/data_generation/strain_paths/interface.py: StrainPathGenerator.plot_strain_path"]}
