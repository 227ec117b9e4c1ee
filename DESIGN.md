# Formal model of hookeai in Rocq: design

## Approach

* Shallow, total Gallina functions mirroring the Python functions branch by branch.
  Every definition cites the file and lines it models; simplifications are stated there.
* One area = `<Area>Model.v` (code), `<Area>Spec.v` (independent specification, when one is needed),
  `<Area>Proofs.v` (lemmas) and `<Area>Props.v` (final theorems, examples, `Print Assumptions`).
* Python exceptions are values: `res A := Ok a | Err exn`.
* Tensors hold real numbers (`R` of the standard library). Floating-point rounding, dtype, device and autograd are
  outside the model. NaN and infinite results are an explicit undefined value (`None`) where the code can produce them
  (failed state updates, division by zero).
* Random sampling, optimisers, linear solvers, polynomial fits, torch loss modules, hardening laws and file-system
  primitives appear as universally quantified arguments: theorems hold for all their behaviours, unless a contract is
  stated as a hypothesis of the theorem.
* When the English claim is false of the code, the file contains the strongest true statement (suffix `_partial`, or a
  statement with explicit hypotheses) and a `_refuted` theorem with a concrete witness; the claim is "partial" in
  MANIFEST.json.
* Every theorem has a concrete non-trivial instance (`Example`) in the same file; theorems are tested against edited
  models (seeded/LOG.jsonl).

## Properties: model, method, status

Model paths are relative to `src/hookeai`; `fe` abbreviates `simulators/fetorch`.

| id | status | modelled code and files | method, and what is missing |
|----|----|----|----|
| C01 Matricial (Kelvin) form round trip of second-order tensors | proved | `fe/math/matrixops.py` conversions, loop and vectorised, orders 2 and 4 (Matrix*) | Arbitrary dimension and component order; loop invariants over list updates, permutations of component pairs. Proved for every dimension and every admissible order in Kelvin notation and for full orders. Kelvin notation is the default; with it switched off the loop reader loses the transposed entries (mf2_roundtrip_sym_nokelvin_refuted) while the vectorised one does not. |
| C02 Matricial form is an isometry and a homomorphism | proved | `fe/math/matrixops.py` conversions, loop and vectorised, orders 2 and 4 (Matrix*) | Arbitrary dimension and component order; loop invariants over list updates, permutations of component pairs.  |
| C03 Vectorised and loop tensor/matrix conversions agree | partial | `fe/math/matrixops.py` conversions, loop and vectorised, orders 2 and 4 (Matrix*) | Arbitrary dimension and component order; loop invariants over list updates, permutations of component pairs. Agreement proved on all admissible orders with Kelvin notation and on full orders; false for symmetric orders without Kelvin notation and for incomplete orders (witnesses). |
| C04 Plane problem 2D/3D state conversions are inverse and consistent with tensor embedding | proved | `fe/math/matrixops.py` 2D/3D states (Matrix*) | Case analysis on the fixed orders with symbolic components.  |
| C05 Voigt notation is work-conjugate | proved | `fe/math/voigt_notation.py` (Tensor*) | Machinery of C01 with factor 2.  |
| C06 Identity and projection operators do what their names say | partial | `fe/math/tensorops.py`, projections of `voigt_notation.py` (Tensor*) | Sums over indices with Kronecker deltas. Operators proved in every dimension; the deviatoric projection is a projection onto traceless tensors in 3D only, since the factor 1/3 is hard-coded (witness in 2D). |
| C07 Shape functions interpolate: partition of unity, nodal delta, linear completeness | proved | the nine classes of `fe/element/type` (Element*) | Polynomial identities; `derivable_pt_lim`.  |
| C08 Shape function derivatives are the derivatives of the shape functions | proved | the nine classes of `fe/element/type` (Element*) | Polynomial identities; `derivable_pt_lim`.  |
| C09 Gauss quadrature exactness | proved | `fe/element/type/quadratures.py` (Quadrature*) | Monomial exactness, then linearity over all polynomials.  |
| C10 Patch test: linear displacement fields give the exact constant gradient | proved | `fe/element/derivatives`, `fe/element/integrations` (Gradient*) | Matrix algebra for any number of nodes; uses completeness (C07).  |
| C11 Vectorised and loop discrete gradient operators agree | proved | `fe/element/derivatives`, `fe/element/integrations` (Gradient*) | Matrix algebra for any number of nodes; uses completeness (C07).  |
| C12 Element internal forces: virtual work and self-equilibrium | proved | `fe/element/derivatives`, `fe/element/integrations` (Gradient*) | Matrix algebra for any number of nodes; uses completeness (C07).  |
| C13 Element assembly conserves forces and is adjoint to extraction | proved | `fe/structure/structure_mesh.py`, `vassemble_internal_forces` (Mesh*) | Induction over elements; adjointness by exchange of sums.  |
| C14 Vectorised assembly equals loop assembly | proved | `fe/structure/structure_mesh.py`, `vassemble_internal_forces` (Mesh*) | Induction over elements; adjointness by exchange of sums. Proved for all labels in range, the quantifier of C13; labels outside the mesh are rejected by the loop version and dropped by the vectorised one (witness). |
| C15 Force equilibrium loss is non-negative and zero exactly at equilibrium | partial | losses of `material_model_finder/model/material_discovery.py` (Loss*) | Sums of squares; pointwise equality of loops and masked reductions. Proved without force normalisation and with symmetric normalisation bounds; false with asymmetric bounds, where the loss at equilibrium is a computed positive constant (witness). |
| C16 Vectorised force equilibrium loss equals the loop loss | partial | losses of `material_model_finder/model/material_discovery.py` (Loss*) | Sums of squares; pointwise equality of loops and masked reductions. Pointwise agreement proved for all inputs. The set loss has the claimed value whenever some degree of freedom is free; without one the smallest label is treated as free (witness). |
| C17 Processing elements before times or times before elements is equivalent | partial | forward modes of `material_discovery.py`, `specimen_data.py`, mesh configuration (Forward*) | Loop interchange by induction over steps and elements; telescoping. Same loss and same final states proved for every mesh with standard materials, every constitutive update, history and number of steps >= 1 (and both modes succeed when the element maps are regular). False for recurrent materials, where the time-major mode always raises, and without time steps (witnesses). |
| C18 Displacement increments telescope to the displacement | partial | forward modes of `material_discovery.py`, `specimen_data.py`, mesh configuration (Forward*) | Loop interchange by induction over steps and elements; telescoping. The accumulated strain is the strain of u_t - u_0 for every history, hence the claimed one when u_0 = 0; false otherwise because the first increment is always zero (witness). |
| C19 Elastic material: stress is linear, path independent and isotropically correct | proved | `standard/elastic.py` (Elastic*) | Induction over increments; symmetry groups. All increment sequences from the initial state, in 3D and plane strain. The tangent of every symmetry class has the required moduli and is invariant under the symmetry group of its class. The alternative modulus names (E2211 for E1122) that the lookup is meant to accept are never found (witness). |
| C20 Hardening laws are continuous, and the reported slope is the derivative | partial | `standard/hardening.py` (Hardening*) | `derivable_pt_lim`; list induction for the piecewise linear law. Values, continuity and interpolation proved for every parameter set. The slope is the derivative away from breakpoints; at or below the first point of the piecewise linear law, and for negative strain in the linear one, a non-derivative slope is reported (witnesses). The Nadai-Ludwik law adds its strain offset twice (witness). |
| C21 von Mises return mapping: consistency, plastic incompressibility, irreversibility | partial | `standard/von_mises.py` (VonMises*) | Newton loop as fuelled recursion with invariants; derivative along every direction. Proved in 3D and plane strain for every prior state, increment and monotone hardening law with yield stresses of at least 2e-8; below that the flow vector is dropped and a state far outside the yield surface is reported as converged (witness). |
| C22 von Mises with linear hardening converges in one Newton step | proved | `standard/von_mises.py` (VonMises*) | Newton loop as fuelled recursion with invariants; derivative along every direction. Every plastic trial state, including the whole state update. |
| C23 Fixed-iteration (vmap) return mapping equals the early-exit loop | proved | `vmap/von_mises.py` (Vmap*) | Refinement of the masked loop; error bounds. The masked loop equals the early-exit loop for every convergence test and step function, and the vectorised von Mises multiplier is the one of the standard Newton loop with ten iterations. |
| C24 Consistent tangent is the derivative of the stress update | partial | `standard/von_mises.py` (VonMises*) | Newton loop as fuelled recursion with invariants; derivative along every direction. Von Mises, 3D and plane strain: proved for the whole update in the elastic range for every law and in the plastic range with linear hardening; for other laws the tangent is the derivative of the exact return mapping, which the Newton loop approximates to tolerance. |
| C25 Data scalers invert | partial | `utilities/data_scalers.py` (Scaler*) | Algebra; sums over the fitting data. Proved for all tensors (2d and 3d) and features with distinct values; constant features give undefined values (min-max) or are only restored on the fitting data (standard), with witnesses. |
| C26 Model parameters stay within their bounds and normalisation inverts | proved | parameters of `rc_base_model/model/recurrent_model.py` and `material_discovery.py` (Param*) | Order reasoning; induction over optimisation histories; dictionaries. Proved for every constructible model and every optimisation history. Equal bounds are accepted by the check but break normalisation at construction (witness); the convexity constraint applied after the bounds may leave them (witness). |
| C27 Recurrent constitutive model: causal, incremental stress path | proved | stress paths of `recurrent_model.py` (Rc*) | Induction over the path for an arbitrary material update. Exact characterisation of the standard stress path for every material update, path and length. The vectorised path agrees whenever it succeeds; it fails for strain-like state features (witness), which the standard path supports. |
| C28 GRU: bounded hidden state, causality, streaming and batch independence | proved | `rnn_base_model/custom/gru_vmap.py` (Gru*) | Induction over time and layers. For all weights, layers, sequence lengths and batches. |
| C29 Early stopping semantics | partial | training loops and criteria of the three trainers (Train*, EarlyStopProps, ConvergenceProps) | State machines over arbitrary loss streams and optimisers. Stop request equivalent to an unimproved tail of length trigger for every validation sequence whose first loss is a number; a NaN first validation breaks it (refuted). Best state = first minimum, minimum never increases, history aligned with epochs: full generality. |
| C30 Training performs the requested number of epochs and saves the best model | partial | training loops and criteria of the three trainers (Train*, EarlyStopProps, ConvergenceProps) | State machines over arbitrary loss streams and optimisers. The full claim is false of the code: n_max+1 epochs are run, a single-epoch run raises, the saved best state is the post-step state and belongs to the last tied epoch. training_outcome_partial gives the exact outcome for every optimiser/validation behaviour with at most one stopping criterion. |
| C31 Parameter convergence criterion | partial | training loops and criteria of the three trainers (Train*, EarlyStopProps, ConvergenceProps) | State machines over arbitrary loss streams and optimisers. Exact for positive trigger, at least one parameter and equally long histories; refuted outside. The per-epoch history of the RC trainer is characterised exactly (includes the value before the epoch). |
| C32 Model state file protocol | partial | `procedures/model_state_files.py` (StateFile*) | File system as a finite map; refinement by induction over operations. Refinement to an abstract store for every operation sequence, at string level, for plain model names and directories without look-alike files; the unrestricted claim is false (four witnesses). |
| C33 Structure state: converged state is isolated from current state | partial | `fe/structure/structure_state.py` (StateStore*) | Heap with references refined to a store without sharing. Refinement of the referencing heap to a store without sharing for every operation sequence with is_copy=True. With is_copy=False (used by the time loop of material_discovery.py) current and converged states alias (witnesses); models that are not recurrent can never be initialised (witness). |
| C34 Dataset editing operations | partial | `time_series_data/time_dataset.py` (Dataset*) | Data sets as lists of association lists, in memory or in files. Exact effect and frame of every edit for data sets in memory, of files, and subsets of data sets in memory; split and removal in full generality. False in general: renaming fails on data sets in memory and under label swaps, default sum weights raise, edits of subsets of file data sets are lost (witnesses). |
| C35 Dictionary precision conversion does not mutate its input unless asked | partial | `utilities/type_conversion.py` (DictConv*) | Heap of dictionaries. Exact heap effect of both conversions, in place and with copy, including shared dictionaries. False in general: the copy mutates nested dictionaries, the tensor conversion fails on nesting and drops entries when copying (witnesses). |
| C36 Cyclic strain paths have the requested length and structure | proved | `data_generation/strain_paths` (StrainPath*) | List reasoning, Euclidean division. Exact index characterisation (triangle wave) for every number of times and cycles accepted by the check; rejection exactly for fewer than 2 n_cycle + 1 times. |
| C37 Generated strain paths respect their bounds | partial | `data_generation/strain_paths` (StrainPath*) | List reasoning, Euclidean division. Bounds hold when they enclose zero strain (proportional) and, for random paths, when the regression exceeds them on one side only; prescribed norms are met at every step. False outside: bounds excluding zero, both bounds exceeded, vanishing increments (NaN), prescribed norms leaving the bounds (witnesses). |
| C38 Moving-average denoising | proved | `utilities/data_denoisers.py` (Denoise*) | Windows over padded lists. For every window, number of features and of denoising cycles; polynomial reproduction for every kernel with matching moments (Savitzky-Golay). Even windows shift affine paths (witness). |
| C39 Regular patch mesh: labels, coordinates, connectivities | proved | `spdg/patch_generator.py` mesh generation, `links` element data (RegularMesh*) | Index arithmetic in any size. All eight element types, any number of elements per dimension (two or three dimensions), any positive patch size; exact arithmetic. |
| C40 Removing mesh elements preserves the remaining mesh | proved | `links.py: remove_mesh_elements` (RegularMeshModel, RemoveElementsProps) | Renumbering invariants. Any mesh with distinct labels whose elements refer to existing nodes; also characterises the two errors. |
| C41 Fresh directory and file names | partial | `ioput/iostandard.py` (Names*) | Pigeonhole on names. Freshness for every file system state. The returned file path may name an existing directory, and creation fails when a numbered name is a regular file (witnesses). |
| C42 Hybridisation channels | proved | `hybrid_base_model/model/hybrid_model.py` (Hybrid*) | Stable sorting of dictionary entries. Proved for every dictionary. Evaluation of channels additionally needs data_scaler_transform on models that work on normalised features; the recurrent classes lack it (witness). |
| C43 Stress invariants of the Lou-Zhang-Yoon criterion | proved | invariants and convexity of `standard/lou.py` (LouModel, LouProps) | Polynomial identities; bisection invariant. All stress tensors (symmetric where stated), exact arithmetic. |
| C44 Convexity return mapping returns convex parameters | partial | invariants and convexity of `standard/lou.py` (LouModel, LouProps) | Polynomial identities; bisection invariant. Direction and tolerance hold for every domain; the last tested radius is returned, so the result may be outside the convex domain (witness; boundary_side says exactly when). The check itself is shown to accept every convex surface, not to reject every non-convex one. |
| C45 Dataset pruning conserves samples | proved | `miscellaneous/pruning/pruning_dataset.py` (Pruning*) | Multiset permutations over iterations. Conservation for every split, loss ranking and number of iterations; the scheduled number is moved whenever the maximum testing ratio is at most one. Related defects found: stalling proportional scheduler, test set saved over the validation set of equal size, iterations sharing a directory (witnesses). |
| C46 Derivative of the inverse of a symmetric tensor | proved | `tensorops.py: fo_dinv_sym` (TensorModel, LouUpdateProofs) | Derivative of the inverse.  |
| C47 Consistency of the vectorised von Mises update | partial | `vmap/von_mises.py` (Vmap*) | Refinement of the masked loop; error bounds. Proved up to the tolerance plus the explicit error of the shifted norm used to normalise the flow vector; the tolerance alone is not met for small yield stresses (witness). |
| C48 Learnable parameters reach the material model | partial | parameters of `rc_base_model/model/recurrent_model.py` and `material_discovery.py` (Param*) | Order reasoning; induction over optimisation histories; dictionaries. Proved for all nine material models when the friction angle is not learnt together with the parameters it determines; in that case the later dictionary entry wins (witness). |
| C49 Exact linearisation of the Lou return mapping | proved | state update of `standard/lou.py` (LouUpdate*) | Derivative of the residual along every curve; residual invariant for any linear solver. Every differentiable curve of unknowns through a state at which the code evaluates; laws differentiable with the slope they return. |
| C50 Converged Lou steps solve the backward Euler equations | proved | state update of `standard/lou.py` (LouUpdate*) | Derivative of the residual along every curve; residual invariant for any linear solver. For every linear solver (the residual is recomputed by the code before convergence is accepted), law and increment. |
| C51 The Lou update handles every admissible increment and never un-yields | partial | state update of `standard/lou.py` (LouUpdate*) | Derivative of the residual along every curve; residual invariant for any linear solver. False of the code: RuntimeError whenever a yielding trial stress has zero third deviatoric invariant (the deviatoric stress is inverted), and a decreasing accumulated plastic strain for trial pressures between 95 and 100 percent of the apex pressure. The general theorems say exactly what happens in both cases. |
| C52 Drucker-Prager steps satisfy flow rule, yield condition and irreversibility | partial | `standard/drucker_prager.py` (Drucker*) | Newton invariants; closed forms; derivatives along every direction. Every clause holds for every hardening law except irreversibility: a return to the apex may lower the accumulated plastic strain by an amount bounded by the tolerance (bound proved; exact monotonicity for linear hardening). With a zero flow or yield pressure parameter every state beyond the apex is flagged as failed. Trial deviators below 1e-8 are dropped (dp_axis_step). |
| C53 The Drucker-Prager consistent tangent is the derivative of the stress | partial | `standard/drucker_prager.py` (Drucker*) | Newton invariants; closed forms; derivatives along every direction. False of the code for returns to the cone: the tangent divides by the norm of the whole elastic trial strain. It is the derivative for every volume-preserving trial strain and is not for every other trial strain (dp_cone_tangent_wrong); dp_cone_derivative gives the corrected formula. Plastic tangents for linear hardening. |
| C54 Mixed hardening steps satisfy the flow rule and end on the yield surface | partial | `standard/von_mises_mixed.py`, three-dimensional core of `vmap/von_mises_mixed.py` (Mixed*) | Newton invariants; induction over histories; transfer from the isotropic model at the strain shifted by the back stress. False of the code: the back stress moves by 3/2 of the increment of the kinematic hardening stress (the flow vector has norm sqrt(3/2)), so plastic steps end at y - dk/2 in relative equivalent stress instead of y, inside the yield surface for dk <= y and outside for dk > 4y. All other clauses hold; the offset is proved exactly (to tolerance). |
| C55 Mixed hardening: histories, special cases and closed form | proved | `standard/von_mises_mixed.py`, three-dimensional core of `vmap/von_mises_mixed.py` (Mixed*) | Newton invariants; induction over histories; transfer from the isotropic model at the strain shifted by the back stress. For every law bounded below and non-decreasing; closed form for linear laws. |
| C56 The mixed hardening consistent tangent is the derivative of the stress, in both implementations | partial | `standard/von_mises_mixed.py`, three-dimensional core of `vmap/von_mises_mixed.py` (Mixed*) | Newton invariants; induction over histories; transfer from the isotropic model at the strain shifted by the back stress. Standard model: proved in elastic steps for every law and in plastic steps for linear laws, three dimensions and plane strain. Vectorised model: same branch, multiplier and failures for every law, flow vector up to the shifted norm; its tangent omits the kinematic slope and is refuted. |
| C57 Strain and stress features are functions of the tensor | partial | `materials/strain_features.py`, `materials/stress_features.py`, `hybridized_layers.py` (Features*, LayerProps) | Index lookup in any admissible order; explicit memory for the aliased tensor; Kelvin forms. Everything holds except: the stored deviatoric stress is stress - tr(stress) I (trace -2 tr, not 0), the stored volumetric stress is three times the hydrostatic stress, and the component order of the first sample is used for every sample (witness with two orders). |
| C58 Volumetric/deviatoric composition inverts the stress features | partial | `materials/strain_features.py`, `materials/stress_features.py`, `hybridized_layers.py` (Features*, LayerProps) | Index lookup in any admissible order; explicit memory for the aliased tensor; Kelvin forms. False in one clause: the layer writes its result into the caller's tensor; evaluating it again on that tensor gives another result. The exact contents of the overwritten input are proved. |
| C59 Batched elastic layer is Hooke's law | partial | `materials/strain_features.py`, `materials/stress_features.py`, `hybridized_layers.py` (Features*, LayerProps) | Index lookup in any admissible order; explicit memory for the aliased tensor; Kelvin forms. Proved for isotropic elasticity; the constructor ignores the requested elastic symmetry (witness with orthotropic moduli). |
| C60 Low-pass denoiser is the projection onto the frequencies below the cutoff | partial | `data_denoisers.py: _dn_frequency_low_pass` (LowPassModel, LowPassProps) | Orthogonality of the discrete harmonics (telescoping), symmetric idempotent operator. Every clause about the filter is proved for real arithmetic (the discrete transform by its definition). The plot clause is false: the plot data array has n_time//2 columns and 2*n_features are written, so plotting raises IndexError when 2*n_features > n_time//2; it is harmless when 4*n_features <= n_time. |
| C61 Loss functions: mean relative error and its gradient | partial | `utilities/loss_functions.py`, `utilities/prediction_metrics.py` (Metrics*) | Sums over arbitrary lists; derivative of the mean; backward pass with NaN as `None`. All clauses on the value are proved; the gradient is the derivative when no target is null. False otherwise: in the default 'absolute' mode the discarded branch of torch.where divides by the null target, so the backward pass yields NaN. |
| C62 Prediction metrics are the named statistics of the stored predictions | partial | `utilities/loss_functions.py`, `utilities/prediction_metrics.py` (Metrics*) | Sums over arbitrary lists; derivative of the mean; backward pass with NaN as `None`. Proved except one clause: 'mav' depends on the predictions only, but is refused when there is no ground truth. |
| C63 Batching neither mixes nor loses samples | proved | `time_series_data/time_dataset.py: time_collator, get_time_series_data_loader`, `utilities/fit_data_scalers.py` (BatchFit*) | Dictionary and list induction; loop invariant: the incremental state is the statistics of the data seen. torch's DataLoader is modelled by its documented batching of the visiting order. |
| C64 Scalers fitted sample by sample equal scalers fitted on all data | proved | `time_series_data/time_dataset.py: time_collator, get_time_series_data_loader`, `utilities/fit_data_scalers.py` (BatchFit*) | Dictionary and list induction; loop invariant: the incremental state is the statistics of the data seen. Real arithmetic; scikit-learn's partial_fit by its published update formulas. |
| C65 A model's data scalers are stored, restored and applied consistently | partial | `gru_model.py`, `recurrent_model.py`, `hybrid_model.py` constructors and init files, `procedures/model_data_scaling.py` (ModelFile*) | Class descriptions (parameters, defaults, written names) and dictionary lemmas; file system as a map. The last two clauses are false: a failed fit wipes the scalers in memory while the file keeps the old ones; set_fitted_data_scalers calls a method the three classes lack (AttributeError) and, for min-max scalers, a missing comma raises TypeError. |
| C66 Predictions stored for a data set are those of its samples, whatever the batch size | partial | `rnn_base_model/predict/prediction.py`, `procedures/model_prediction.py: save_sample_predictions, write_prediction_summary_file` (Predict*) | Loop invariant over the batches; stacking commutes with row-wise maps; the network is a universally quantified separable function. Proved except two clauses that are false: a data set without ground truth raises KeyError although the loss computation handles it, and an average loss of exactly zero is reported as None. |
| C67 A model restored from its initialization file has the constructor's arguments | partial | `gru_model.py`, `recurrent_model.py`, `hybrid_model.py` constructors and init files, `procedures/model_data_scaling.py` (ModelFile*) | Class descriptions (parameters, defaults, written names) and dictionary lemmas; file system as a map. Proved for the GRU and hybrid classes; false for the recurrent constitutive class, whose file omits is_auto_sync_parameters and is_check_su_fail. |
| C68 Rigid motions of a generated patch are rigid, and optional | partial | `data_generation/spdg/patch_generator.py`, random deformation (DeformModel, DeformProps, DeformLoopProps) | Polynomial identities (nsatz); fold invariant over the edges; monotone arc-length fractions; uniqueness of interpolation and an explicit Gauss solver; dictionary induction. Proved except the last clause, which is false: the code tests the rotation and translation of the last edge instead of those of the rigid motion, so that the default (no range) raises TypeError and no patch is generated. |
| C69 Displacements of the patch corners respect their ranges and conditions | partial | `data_generation/spdg/patch_generator.py`, random deformation (DeformModel, DeformProps, DeformLoopProps) | Polynomial identities (nsatz); fold invariant over the edges; monotone arc-length fractions; uniqueness of interpolation and an explicit Gauss solver; dictionary induction. False in general: when the ranges of the ends of an order zero edge do not overlap on an interval, the averaged displacement leaves both and moves fixed corners; in three dimensions a later edge overwrites one end of an earlier one. Proved for compatible ranges (any dimension), and parallelism in two dimensions. |
| C70 Deformed edges join the displaced corners along the sampled polynomial | partial | `data_generation/spdg/patch_generator.py`, random deformation (DeformModel, DeformProps, DeformLoopProps) | Polynomial identities (nsatz); fold invariant over the edges; monotone arc-length fractions; uniqueness of interpolation and an explicit Gauss solver; dictionary induction. All clauses are proved (np.linalg.solve by its specification, which is shown satisfiable) except the last one: it holds up to order two and is refuted for order three. |
| C71 The prescribed boundary displacements are those of the deformed edges | partial | `data_generation/spdg/patch_generator.py`, random deformation (DeformModel, DeformProps, DeformLoopProps) | Polynomial identities (nsatz); fold invariant over the edges; monotone arc-length fractions; uniqueness of interpolation and an explicit Gauss solver; dictionary induction. The boundary values and the loop are proved; full chain from the draws to the dictionary in two dimensions. The face interpolation uses i/n instead of i/(n-1): it reproduces uniform but not linear displacements. |
| C72 Transfer learning models and model hybridization compute the documented functions | partial | `hybrid_base_model/model/transfer_learning.py`, `hybridization.py` (TransferModel, TransferProps) | Polynomial identities and uniqueness of interpolation; reuse of the elastic layer lemmas. Proved except: degree zero without bias raises instead of giving a null model; the device of a regressor cannot be read (AttributeError); on concatenated strains the transfer and the hybridized elastic layers return opposite stresses. |
| C73 The noise generator has the stated distributions | partial | `strain_paths/noise_generator.py`, `noisy_data/inject_disp_noise_csv.py` (NoiseModel, NoiseProps) | Noise as an explicit function of distinct positions in the stream of draws; linear expectation functional for second moments; induction over the files. Proved except: heteroscedastic noise without weights has twice the variance of homoscedastic noise, and an unknown variability ends in NameError. |
| C74 Noise injection changes the displacements of later time steps only | partial | `strain_paths/noise_generator.py`, `noisy_data/inject_disp_noise_csv.py` (NoiseModel, NoiseProps) | Noise as an explicit function of distinct positions in the stream of draws; linear expectation functional for second moments; induction over the files. Proved for every law of the noise and every directory name except the empty one and a dot, for which the directory of the data itself is emptied (refuted clause). |
| C75 Strain and stress tensors are assembled faithfully from their named components | partial | `user_scripts/synthetic_data/gen_response_dataset.py`, `gen_noisy_response_dataset.py`, `strain_paths/interface.py: build_strain_tensor` (ResponseModel, ResponseProps, ResponseSetProps) | Fold invariant over components and over time steps; refinement to the recurrent model; first success of a list of trials; reuse of the noise laws. Proved for complete lists of components. A strain tensor is also built from an incomplete list of the right length (a repeated component), with zeros for what is missing; a list of the wrong length for the problem ends in TypeError because the error message itself is built wrongly (refuted clauses). |
| C76 The stress path of a strain path is the material's response and agrees with the recurrent model | partial | `user_scripts/synthetic_data/gen_response_dataset.py`, `gen_noisy_response_dataset.py`, `strain_paths/interface.py: build_strain_tensor` (ResponseModel, ResponseProps, ResponseSetProps) | Fold invariant over components and over time steps; refinement to the recurrent model; first success of a list of trials; reuse of the noise laws. Proved for every material and path. Refuted: a nonzero strain in the first row of the path is not part of the response, so Hooke's law of the total strain fails there; and a requested state variable that the model lacks is kept as zeros on a one-step path, silently dropped on longer ones, or ends in KeyError in the script for noisy data sets from the third time on. |
| C77 A response data set holds one successful path per sample, in order | partial | `user_scripts/synthetic_data/gen_response_dataset.py`, `gen_noisy_response_dataset.py`, `strain_paths/interface.py: build_strain_tensor` (ResponseModel, ResponseProps, ResponseSetProps) | Fold invariant over components and over time steps; refinement to the recurrent model; first success of a list of trials; reuse of the noise laws. Proved except: a data set without samples fails, csv data cannot be stored as files, and csv data without stress columns fail (refuted clauses). |
| C78 A noisy response data set differs from the clean one by the configured noise only | partial | `user_scripts/synthetic_data/gen_response_dataset.py`, `gen_noisy_response_dataset.py`, `strain_paths/interface.py: build_strain_tensor` (ResponseModel, ResponseProps, ResponseSetProps) | Fold invariant over components and over time steps; refinement to the recurrent model; first success of a list of trials; reuse of the noise laws. Proved without a data scaler. Refuted: heteroscedastic noise fails when the generator is imported; with a scaler the stored noise is not the difference of the strains and denoised strains start at the normalised strain; the noise of a path depends on the paths before it through the normaliser. |
| C79 The vectorised Drucker-Prager update satisfies its law and agrees with the standard update | partial | `fetorch/material/models/vmap/drucker_prager.py` (VDruckerModel, VDruckerProps, VDruckerAgree, VDruckerTangent, VDruckerCases) | Early exit of the masked loop; refinement to the standard update (delayed acceptance); closed form for linear hardening; transfer of the derivative along a locally equal map. Proved in full except two clauses. The deviatoric stress is scaled with a square root clamped at 1e-4: below, a successful update violates the yield condition (refuted by 50 % of the cohesion). The loop accepts the first iterate, which the standard update still corrects: the agreement holds when that iterate is not accepted or is a fixed point (always for linear hardening), and is refuted otherwise. |
| C80 The tangent of the vectorised Drucker-Prager update is the derivative of its stress | partial | `fetorch/material/models/vmap/drucker_prager.py` (VDruckerModel, VDruckerProps, VDruckerAgree, VDruckerTangent, VDruckerCases) | Early exit of the masked loop; refinement to the standard update (delayed acceptance); closed form for linear hardening; transfer of the derivative along a locally equal map. Proved for elastic updates (any law) and returns to the apex (linear hardening). On the cone the code adds 1e-8 to each component of the deviator before taking its norm: the derivative is the formula of the code with the exact norm, which differs from the norm used by at most 3e-8 (partial), and the returned tangent is not the derivative (refuted; a general criterion is vdp_cone_tangent_wrong). |
| C81 A specimen mesh read from its input file is the mesh that was written | partial | `gen_specimen_data.py: get_specimen_mesh_from_inp_file`, `links_data_to_adimu.py: write_adimu_mesh_data_file` (TextLines, SpecimenModel, SpecimenProps) | Lines as strings; induction over the written lines; inverse of printing by the specification of the number parser. The round trip and the refusals are proved. Refuted: the labels of the nodes are ignored (position counts), a repeated element label overwrites and hides a missing element, and comments, lower case keywords or continued lines fail. |
| C82 A Links input file holds the simulation it was written for | partial | `links.py: _write_links_input_data_file`, `links_data_to_adimu.py` readers (LinksFileModel, LinksFileProps) | Fixed-width fields as padded words; keyword search skips the text before; induction over the blocks of the file. Proved for titles without the keywords, phases below 1000, values narrower than the format and every component prescribed. Refuted: a title with a keyword breaks the reader, phases from 1000 on shift the connectivities, a value of full width merges with its code, a free degree of freedom ends in TypeError, QUAD8 is not converted. |
| C83 The specimen history read from its files is the history of the simulation | partial | `links_data_to_adimu.py` history files and Dirichlet sets, `gen_specimen_data.py: get_specimen_history_paths, get_specimen_numerical_data` (HistoryModel, HistoryProps) | Uniqueness of sorting (any permutation of the directory); fold invariants over the flag table. Proved except: the sets of nodes are those of one specimen (the code fails on every mesh with fewer than 1712 nodes), a backup copy of a history file counts as a further time step, the node labels in the files are ignored, and node zero constrains the last node. |
| C84 A Links load history takes the steps that were asked for | partial | `simulators/links/links.py: _get_links_loading_incrementation` (LinksLoadModel, LinksLoadProps) | Induction over the ramps; integer division; interpolation by an explicit solver; rounding as any function within the printing error. Proved for the exact factors; for the printed ones (nine digits) the drift is bounded by the printing error times the number of increments. Refuted: that the printed factors sum up to exactly the load (three increments end below one, six above). |
| C85 The results returned from a Links simulation are those of that simulation | partial | `simulators/links/links.py` input directory, run and results (LinksResultsModel, LinksResultsProps) | Directories and files as lists; uniqueness of sorting; array operations on rows with broadcasting. Proved for at least two nodes and complete files. Refuted: the exit code of the binary is not checked and the screen file of an earlier run counts as success; a specimen of one node ends in IndexError; a truncated file with a single row is repeated for all nodes; a directory with a trailing slash loses the name of the simulation. |
| C86 The vectorised forward propagation gives the loss of the sequential one | partial | `material_model_finder/model/material_discovery.py: vforward_sequential_element` and its parts (VForwardModel, VForwardProps, VForwardNormProps) | Refinement: both modes reduce to one expression per Gauss point; induction over points, elements and times; assembly as a sum of contributions. Proved for models without data scalers; with scalers the vectorised mode is that of the physical model (vforward_normalised), but the sequential mode feeds physical strains to the model and takes its normalised outputs for stresses, so the modes disagree, and the stored history holds the normalised strain beside the physical stress (refuted clauses). |
| C87 The averaged volumetric strain operator keeps the deviator and averages the trace | partial | `material_discovery.py: vcompute_local_strain_vbar` and its parts (VForwardModel, VBarProps) | Linear algebra over sums; induction over the Gauss points. Proved in three dimensions. In plane strain the deviator is taken with a half of the trace while the volumetric part has a third of it: a uniform strain loses a sixth of its trace and the patch test fails (refuted); the exact value is vbar_strain_value. |
| C88 Mean prediction metrics are means over exactly the samples of the directory | partial | `utilities/output_prediction_metrics.py`: directory and means (MeanMetricsModel, MeanMetricsProps) | Fold invariant over samples and metrics with multiplicities; invariance under permutation of the listing. Proved for prediction files with ground truth of the same number of features. Refuted: names such as prediction_sample_12pkl or with leading zeros count as samples; in a directory without prediction files any metric, known or not, is returned as an empty tensor; a sample with a null ground truth makes the normalised metric NaN. |
| C89 The file of mean prediction metrics can be read back | partial | `utilities/output_prediction_metrics.py`: file and convergence data (MeanMetricsModel, MeanFileProps) | Lines as strings; inverse of printing; induction over the written blocks; uniqueness of sorting. Proved for finite values, metric names of word characters and labels without the keyword: the first process with the number of samples is returned. Refuted: a NaN stops the reader, a second process with the same number of samples can never be read, a label with the keyword stops the reader, and a process of another name stops the convergence data (the test is on the builtin id). |
| C90 Prediction arrays and time series pair each prediction with its own ground truth | partial | `model_architectures/materials/process_predictions.py` (PredArraysModel, PredArraysProps) | Fold invariant over samples and components; uniqueness of sorting; dictionary induction; permutations of the listing. Proved for stress and plastic strain components. Refuted: accumulated plastic strains always fail (the prediction files never hold the order of the components); a missing ground truth ends in TypeError before the check that refuses it; a file number with leading zeros is counted but its file not found; a copy of a model directory counts as a further model. |
| C91 Local strain-stress paths of the finder are those of the chosen elements in both modes | partial | `material_discovery.py` local paths of both modes (LocalPathsModel, LocalPathsProps) | Round trip of the matricial form per row; filter against selection; permutations. Proved: contents of every stored path in both modes; the modes agree for all elements or increasing labels of the mesh, and up to order for distinct labels. Refuted: another order of labels changes the vectorised data set only, a repeated label is stored twice by it, label 0 is its last element and a label beyond the mesh an error, where the sequential mode ignores both. |
| C92 Specimen data of the finder are checked and set as a whole, and reactions are exported by set | partial | `set_specimen_data`, `check_dirichlet_bc_mesh_hist`, reaction histories (FinderDataModel, FinderDataProps) | Case analysis of the call; sorted labels are unique; exchange of sums. Proved: exact acceptance condition, the state left by an accepted call, and the reaction table for labels 0..k-1 that do not change. Refuted: a call refused for its weights or force bounds has already replaced the specimen; without free degrees of freedom column SET 0 is label 1; codes that change after the first step are ignored. |
| C93 Collected parameters of the finder: one label per parameter, values within the bounds of the label | partial | `get_detached_model_parameters`, `get_model_parameters_bounds` of the finder (FinderParamsModel, FinderParamsProps) | Fold invariant over the collected dictionary; unique decoding of labels at the separator. Proved for numbered models whose submodel names are not extensions of each other by an underscore; otherwise two parameters can share a label and the second replaces the first (refuted). |
| C94 The vectorised Lou-Zhang-Yoon update is the standard one | partial | `fe/material/models/vmap/lou.py: LouZhangYoonVMAP` (VLouModel, VLouProps) | Masked loop as accepted-then-frozen iteration; refinement to the standard Newton loops (LouUpdateModel); exceptions of the discarded branch; closed-form witnesses of perfect plasticity. Proved: when b and 3ab are at least 1e-6 (the bound by which the vectorised class replaces them) every successful vectorised update is the result of the standard update with the same laws (slopes of the parameters replaced by zero when they are assumed constant), and in three dimensions every update is an elastic step, a return to the surface, a return to the apex, or a reported failure. Refuted: both branches are always evaluated, so a trial stress whose deviator is singular, as that of a null increment from the virgin state, raises although the standard class returns it unchanged; a negative b is replaced by its absolute value and returned to the opposite apex. |
| C95 Meshes survive the conversion between Abaqus and Links input files | partial | `simulators/links/utilities/links_dat_to_inp.py` (InpLinksModel, InpLinksProps) | Simulation between the passes of the two readers of an Abaqus file; read-back of every written line; dictionaries as association lists. Proved: for every Abaqus file that both readers accept the converted Links file has the nodes, the elements in the order of their labels and the constrained degrees of freedom of the specimen reader, for numbers printed with a leading blank; a mesh written as Abaqus file is converted with its coordinates (rounded), connectivities and prescribed displacements. Refuted: no converted file states the element type, so that none can be converted back (NameError); element labels other than 1..n and null displacements without a value stop the conversion; constraints of nodes outside the mesh are written and those of higher degrees of freedom leave nodes without displacements. |
| C96 Uniaxial specimens are held on their symmetry planes and loaded on their top face | partial | `simulators/links/utilities/links_specimen_dirichlet.py` (UniaxialModel, UniaxialProps) | Case analysis of the cascade over arbitrary number types with the two thresholds; induction over the nodes; read-back of every line with the reader of C82. Proved: the cascade of twelve cases prescribes each component exactly on its faces, the rows are the nodes on the faces in order, and the written section is read back as those prescriptions when the numbers are narrower than their fields; the reaction group is the loaded face for positive loads. Refuted: for a compressive load the reaction group is empty (the test is without absolute value), and its displacement fills the field, so that the values of the line run together and cannot be read. |
| C97 Material sections of Links input files describe the materials | partial | `simulators/links/models/*.py`, `links.py` 572-592 (LinksMatModel, LinksMatProps) | Read-back of left-aligned rows by induction; absent letters against keywords; induction over the table for the interpolation bounds. Proved: every section is read back as its descriptors in the documented order, missing descriptors and unknown models are refused, no line of a section is mistaken for a keyword of the file, the table has the requested points from 0 to 2, keeps linear hardening exactly and any law of slopes at most L up to L/(n-1). Refuted: one hardening point loses the hardening without an error; no law is described beyond plastic strain 2; a negative number of three exponent digits runs into the next one. |
| C98 Plotted yield surfaces are those of the constitutive models | partial | `miscellaneous/materials/plot_yield_surface.py` 56-419 (YieldPlotModel, YieldPlotProps; contours and figures not modelled) | Orthonormality of the pi frame; squares of the circle and cone conditions; reduction of the root for c = d = 0. Proved: pi-stresses are an orthonormal frame whose third axis is the pressure, the von Mises domain is the circle of radius sqrt(2/3) sy at every pressure (up to the perturbation 1e-10) and the Drucker-Prager domain the cone of radius sqrt 2 (sy - sin f pi3), Lou-Zhang-Yoon contains both, all are isotropic, normalisation keeps the domain, von Mises surfaces fit in the grid. Refuted: Drucker-Prager without friction is not von Mises of the same yield stress; the unloaded state lies outside for yield stresses below sqrt(3e-10); the grid ends a step before its upper limit; the second side of the null planes is negative. |
| C99 Reaction histories are shared out by constraint set, and labels are copied between specimen files | partial | `process_specimen_data.py` 58-139, 226-440, 684-752 (ReactSetsModel, ReactSetsProps; figures and file paths not modelled) | Partition of the nodes by code; injectivity of the labels; induction over the files. Proved: every set holds the nodes of one initial code in one direction with their net reaction, every node is in a set of every direction, labels differ, the sets share out all reactions, the comparison pairs each history with the time steps, exactly the sets of code 0 are left out; labels are copied row by row exactly when the lengths agree and every source is labelled. Refuted: codes after the first step are ignored; the documented default of plotting all nodes is refused; node 0 is plotted as the last node; a refused copy has already changed earlier files; labels go to other nodes when the order differs; a shorter source leaves missing labels. |
| C100 Training of the material model finder: its histories, best state and result | partial | `material_model_finder/train/training.py` 185-420, `model_training.py` 163-340 (FinderTrainModel, FinderTrainProps; loss, update, rates and convergence check are arguments) | Loop invariant over the epochs; minimum of a history with NaN entries. Proved: the exact contents of the histories and state files of every run up to the last epoch, which is the maximum or the first one with converged parameters; the saved best epoch is the last, and the returned one the first, with the least loss among the losses that are numbers; bounds enforced after every update hold for everything on file; histories are read back from their record. Refuted: a first loss that is NaN prevents any best state and ends the call in an error; a run of one epoch ends in a division by zero; with a scheduler the recorded rate is that of the next epoch; the best state on file is the one after the best epoch's update and can have a larger loss. |
| C101 Options of the random material patch are applied as documented | partial | `patch_generator.py` 475-537, 617-747, 794-821, 1914-1930, `patch.py` 675-739 (PatchOptModel, PatchOptProps; the shuffle is an argument) | Finite bijection of the labels; invariants of the dictionary loops; polar form of atan2. Proved: labels are a bijection with the edges, the dictionaries of corners and edges have exactly the documented effect and the first bad corner entry decides the exception; the random minimal set fixes three or six degrees of freedom; in three dimensions every edge has one other label, and the two are averaged between their common ends; rotation angles are exact. Refuted: without conditions nothing is fixed although a random minimal set is documented; some minimal sets leave a rigid motion free; unknown edge labels are ignored and ranges of any length accepted; a displacement given to one of the two labels of an edge is halved; the mean of two opposite rotations is zero, also near half a turn. |
| C102 Nested parameter dictionaries hold every parameter of a model once, at its dotted path | partial | `torch_parameters.py` 24-80 (ParamTreeModel, ParamTreeProps; the named parameters are an argument) | Induction on paths; invariant of the loop over the names. Proved: for names none of which is the beginning of another (as torch guarantees) every parameter is found at the path of its name and nothing else is, top keys keep their order, and names are recovered from paths. Refuted outside that condition: a name that is the beginning of an earlier one silently replaces all parameters below it, while the opposite order is refused. |
| C103 The load factor history read from a Links file is the loading of the file | partial | `links_plot_tfact.py` 40-135, 167-251, `links.py` 902-973, 1035-1046 (TfactModel, TfactProps; the figure and the text file written are not modelled; number format and reader are arguments) | Invariant of the line scan; read-back through the words of a line. Proved: the history read from a section with as many increments as announced is the running sum of the factors at equal times, in particular for every loading written by the simulator; excess increments and files without a section are refused; scaling acts on the totals only and is invertible. Refuted: missing increments get a total of zero instead of the last one, and any line with the word (a title, a comment) is taken for the header. |
| C104 The temperature and composition dependent material is well posed over the whole admissible range | partial | `local_model_update.py` 189-207, 831-940 (ThermoParModel, ThermoParProps; decimal literals are exact rationals, arithmetic is real) | Bilinear functions are bounded by their corner values; sums of squares for the polynomials; the piecewise law of C20 on the table; first minimum by induction. Proved: parameters are returned exactly for von Mises at 25 to 625 degrees and compositions in [0, 1]; every returned set is a well posed isotropic material (Young's modulus between 80 and 200 GPa, Poisson's ratio between 0.2 and 0.4, initial yield stress above 300 MPa, hardening slope above 3 GPa) whose table is strictly ascending and reproduces the linear law for plastic strains up to 2; draws around a grid value fill exactly the interval between its neighbours, stay within the bounds of any grid, and always have a material. Refuted: beyond a plastic strain of 2 the linear law is replaced by a constant; with a repeated grid value the draw misses the upper neighbour. |
| C105 The material data sets of the local model update have the previewed sizes and the asked composition | partial | `local_model_update.py` 84-530, 690-755, 1035-1055 (MatDataModel, MatDataProps; random draws, failures of the response, selection and permutation are arguments; plots not modelled) | Integer parts; induction over types, pairs and trials; distinct directory names; permutations of concatenations. Proved: ratios are accepted exactly when they leave a random and a proportional path; every pair of grid values gets, for every type, the asked number of samples, the first int(n r) on random paths, on the grid for training and between the neighbours for validation and testing; generation succeeds for every admissible grid unless a sample fails ten times; assembly puts the samples of every known type, and of no other, in its directory, in the previewed number or the kept fraction, none twice. Refuted: without ratios every call is refused although all samples are documented to be random then; imported as a library the function ends in a NameError; grid values equal to two decimals share a directory and the earlier samples are lost; an unknown type ends in a NameError or replaces the data set assembled before it; a backup copy of a file doubles its samples; a fraction given as an integer is ignored. |
| C106 The uniaxial stress path of the model evaluation is in uniaxial stress | partial | `evaluate_gru_model.py` 185-222, 334-493, 820-850 (UniStressModel, UniStressProps; the two material models and the jacobian are arguments; reading and plotting not modelled) | Newton iterates as a separate specification, induction over steps and iterations; exact solution of the elastic step; a material on which two iterates alternate. Proved: the path has the prescribed axial strains from the second step on and no shear, the lateral strains of a step being the first Newton iterate that meets the criterion or the last one; for every causal material the returned stress of a converged step is uniaxial up to the tolerance times the strain; for linear isotropic elasticity the lateral strains and the axial stress are exactly those of Poisson's ratio and Young's modulus; stresses have the shape of the strains, the recurrent model sees temperature and composition at every step, and unknown models are refused; data sets of compositions in whole hundredths are all kept. Refuted: a step that does not converge is stored without notice; the first prescribed strain is ignored; a tolerance above the Lame constant leaves the bar laterally confined (the criterion compares a stress with a strain); compositions within the same hundredth overwrite each other. |
| C107 k-fold cross-validation trains and tests on complementary folds of the data set | partial | `rnn_base_model/train/cross_validation.py` 36-270 (KfoldModel, KfoldProps; KFold from its documentation, training and prediction are arguments) | Cutting a permutation; complements by filtering; induction over the folds. Proved: for every shuffle the k validation folds partition the samples, their sizes differ by at most one and are the documented ones, every training fold is the complement of its validation fold, both in increasing order, and exactly k < 2 and k > n are refused; were the model defined, the returned losses would be those of the folds in order, and only in the verbose mode. Refuted: the function reads the model before it assigns it and so ends in a NameError for every admissible call; the folds are not consecutive samples. |
| C108 Uncertainty quantification evaluates every realisation of the model once, in order | partial | `rnn_material_model/uncertainty_quantification.py` 55-470, `model_prediction.py` 119-179, `iostandard.py` 100-151 (UqModel, UqProps; training, prediction and plots are arguments or not modelled) | Read-back of the summary line; sorting by number is insensitive to the directory order; induction over realisations. Proved: a written average loss other than zero is read back from the summary file, and a summary without a loss is refused; the realisations are found in numerical order whatever the order of the directory and the losses of the evaluation are those of the realisations in that order; the table of a sample has the time of the first realisation and one column per realisation; training saves every realisation in its own directory and prediction uses each one. Refuted: a loss of exactly zero is written as None and cannot be read; fewer realisations than announced end in an IndexError; a backup copy of a model directory counts as a realisation; all samples cannot be asked for with more than one prediction type; a missing realisation ends the prediction. |
| C109 Generated material patches become a data set of local strain-stress paths | partial | `gen_random_specimen.py` 59-276, 569-660, `build_local_paths_dataset.py` 62-256, 344-410, `links_nodedata_to_csv.py` 25-106 (PatchDataModel, PatchDataProps; generator, simulation and local paths are arguments; the number of added columns is a parameter, zero in the code) | Induction over the patches with distinct directory names; the readers of C83; every frame written has ten columns. Proved: every patch is simulated in its own directory and no other directory changes; stored patches are simulated again with the same results and unsaved ones are refused; the node data are written in the order of the steps with node, coordinates, displacements and reactions, other widths are refused; two or more patches are found in the order of their numbers; with three more columns the data set would be the concatenation of the local paths of the patches, computed from displacements and reactions in the order of time. Refuted: the node data are written with 10 columns and read with 13, so no call ever builds a data set; the directory of a single patch is never found; the simulation has a fixed name, so patches of another name, such as the default one, are refused; names with a dot are not found. |
| C110 Force-displacement curves and Gauss point paths are those of the simulation | partial | `links_plot_force_disp.py` 31-157, `links_out_to_dataset.py` 42-149 (ForceDispModel, ForceDispProps; settings of the script as arguments, text and figure not modelled) | Time order of C83; filtering of the groups; columns of a table as functions of its lines. Proved: the points of the curve are the displacement of the reference node and the reaction of the node group in the loading direction, step by step and multiplied, whatever the order of the directory, the other files and the other groups; another number of reactions is refused; the strain and stress tensors of a Gauss point, with tensorial shears, are recovered from every line, narrower files are refused, and the data set has the path of every file in order. Refuted: a single reaction is repeated for every step; the first label beyond the mesh escapes its check and ends in an IndexError; label zero stands for the last node; in two dimensions no Gauss point file can be read (TypeError). |
| C111 The file found by a regular expression is the only one meant | partial | `iostandard.py` 153-222, `time_dataset.py` 125-166, `local_model_update.py` 1057-1090 (FileFindModel, FileFindProps; expressions as a syntax tree over bytes, so the digits of other alphabets are left out; invalid expressions not modelled) | Derivatives of expressions against an inductive language; first match by induction over patterns and entries; decomposition of names. Proved: the matcher decides the language of every expression and the search with anchors; the file found is the first entry that the first successful pattern accepts, nothing is found exactly when no entry matches any pattern, and a file that alone matches is found in every order; missing directories and other arguments are refused; the exact names accepted by the two patterns of the code; a saved data set is found when no other file matches. Refuted: the file is not checked to be unique, so a data set saved again with another size leaves the stale file, and which is loaded depends on the directory order; backups match the pattern of the pipeline, and names without the dot that of the scripts; data sets saved without their size are not found. |
| C112 Learning rates follow the schedule and a resumed training continues the previous one | partial | `optimizers.py` 24-110, `rnn_base_model/train/training.py` 178-251, 303-475, `model_state_files.py` 35-290 (ResumeModel, ResumeProps; the schedulers of PyTorch by their recursions, one epoch of the optimizer is an argument, no early stopping) | Closed forms by induction on the epochs; invariant of the session over its files and histories; two optimizers as witnesses, for all numbers of epochs. Proved: the rates of the three schedules in closed form at every epoch, never increasing for decaying arguments; the unknown optimizers, schedulers and missing arguments that are refused; a session trains from the requested state with the rates from the beginning of the schedule, its files hold the starting parameters, its own epochs, its last state and its best state; with a stateless optimizer and a constant rate a resumed training is the uninterrupted one. Refuted: the linear schedule raises the rate by default; a step size of zero is accepted and fails at the first update; resuming overwrites the initial state, restarts the schedule, loses the state of the optimizer and replaces a better best state. |
| C113 Convergence plots and ground truth comparisons show the results of the models | partial | `convergence_plots.py` 49-800, `model_prediction.py` 336-470, `plots.py` 1104-1304 (ConvPlotModel, ConvPlotProps; sizes, losses and parameters of the models are lists, no drawing) | Rows by induction on the models; extrema and sums by induction on real lists; affine invariance of the two sums of squares. Proved: the rows of the convergence tables are the size and the loss, the realisations or the parameter of the same model, and missing parameters, uneven numbers of realisations and different testing sizes are refused; the error bars reach exactly the least and the greatest value; curves of distinct sizes are all kept; listed samples are plotted for all the types; the band holds exactly the points within the relative error; the coefficient of determination is at most 1, is 1 exactly for perfect predictions and does not depend on the units for values that vary; normalized values are an increasing affine image in [0, 1]; the array of several processes keeps every value. Refuted: a single realisation is silently repeated; models with equal sizes overwrite each other; all the samples cannot be asked for with two types; the coefficient of a perfect prediction of constant values is NaN and that of another one depends on the units; the band of the normalized plot is not the relative error. |
| C114 The history of a hyperparameter optimization shows the objectives of its jobs | partial | `hydra_optimization.py` 71-285, `hydra_optimization_plots.py` 35-255, `iostandard.py` 100-151 (HydraPlotModel, HydraPlotProps; losses, printing and float() are arguments, linear metric, no drawing) | Uniqueness of the sorted permutation; invariants of the loops over jobs and of the running minimum. Proved: the objective of a job is the best training loss or the average prediction loss, as the process says; it is read back from the summary of the job whatever the configuration that does not mention an objective; the history has the metrics of the jobs in the order of their numbers whatever the order of the directory and its other entries, and is complete (missing jobs and summaries are refused); the best job has the least metric and is the first with it; the plot of a process has its jobs, metrics and running minimum. Refuted: without early stopping every job ends in a NameError; a parameter whose name contains that of the metric is read in its place; several processes are all drawn with the metrics of the last one, and with other numbers of jobs the plot fails. |
| C115 A hybridized model is the one described by its arguments | partial | `hybridized_model.py` 24-141, `hybrid_material_model/train_model.py` 131-291, 426-836 (HybBuildModel, HybBuildProps; constructors, files, setters and the fit of the scalers are arguments; material parameters not modelled) | Case analysis on the optional arguments, on top of the forward pass of C42; failure of every scheme for all constructors. Proved: set_hybridized_model succeeds exactly under the stated conditions, its arguments replace those read from the model file, material layers and recurrent constitutive models are built as described, and the compositions of the hybridization schemes are the documented ones. Refuted: a GRU with data scalers cannot be hybridized because the class has no set_data_scalers, so no scheme of the training script runs; scalers given for the inputs only discard those of the outputs read from the file; booleans pass the check on indices. |
| C116 The features option prepares the features that the model expects | partial | `rnn_material_model/train_model.py` 78-290, `predict.py` 98-230 (FeatOptModel, FeatOptProps; data set operations of DatasetModel and FeaturesModel) | Effect of a sequence of editing loops over the samples; rows as relations between times and lists; powers of the decay factor. Proved: for every features option and every data set the input and output features of every sample, at every time, are the documented rows (concatenations, differences and invariants of the strain), no path of the data is changed, the widths are those given to the model for three-dimensional data, unknown options are refused, and the exponential schedule decreases from the initial to the final rate in the given number of epochs. Refuted: in two dimensions the width of the features is not that of the model. |
| C117 Scripts on directories of case studies touch exactly the files they name | partial | `process_case_study_dirs.py` 23-138, `build_noise_directory.py` 24-110, `tsdataset_splitter.py` 24-45, `element_paths_indices.py` 17-38 (CaseDirsModel, CaseDirsProps; a file system is a list of paths with contents, without empty directories) | Loops of removals and of tree copies by induction, against paths written out; language of the regular expression of C111. Proved: the scripts remove exactly the plots, models or sample predictions of the case studies, re-dump only sample predictions, regroup the noisy data sets of the sizes listed under the noise cases of the first one file by file, replace the testing data sets by the shared one, name the subsets beside the data set when its path is absolute, and list the indices of the Gauss points of an element when all elements are stored. Refuted: noise cases missing in the first data set are left behind and ones missing in another stop the script; with a relative path the directory is repeated; with a selection of elements the indices are those of another element. |
| C118 Denoising the displacement files changes displacements only, node by node | partial | `denoise_disp_noise_csv.py` 39-182 (DenoiseCsvModel, DenoiseCsvProps; data directory of NoiseModel, denoiser of DenoiseModel, step numbers are an argument) | Values of every cell from the filtered columns; uniqueness of the sorted permutation; laws of C38 lifted to the files. Proved: every time step file is written again under its name, only the displacements change, they vanish at the first step and are afterwards the repeatedly filtered history of the same node and component; success exactly for non-empty frames of ten columns with equal numbers of nodes; no dependence on the directory order; bounds and affine stretches are kept by moving averages. Refuted: a displacement linear in time without noise misses its last value, a non-zero initial displacement is lost, an empty directory name or a dot removes the data, two simulations in one directory are merged, label 0 shows the last node. |
| C119 A discretized hardening function reproduces the function | partial | `function_discretizer.py` 29-135, `compare_hardening_laws.py` 38-163 (LawTableModel, LawTableProps; drawing and number format not modelled) | Points of the curve of C20 on an equidistant table; subadditivity of powers; columns by induction on the laws. Proved: the table of a function is accepted by the piecewise linear law, which is exact at its points, off by at most the change over one interval of a monotone function (a times the interval to the power b for the Nadai-Ludwik function) and below a concave one; the custom function is the Nadai-Ludwik one over the cohesion parameter; the file and figure hold the table; the comparison shows the yield stress of every law under its name. Refuted: past the last point the law saturates; the two laws compared by the script differ at every point because the code adds the offset twice; the linear option and a figure saved without being displayed raise NameError. |
| C120 Converting a data set file keeps its samples | partial | `convert_dataset.py` 30-97, `convert_to_tsdataset.py` 29-70, `time_dataset.py` 124-195, 502-545, 651-740, 786-867 (ConvDataModel, ConvDataProps; a file system maps directory and name to contents, directories are normalized, serialization not modelled) | Invariant of the conversion loop over files that hold the same samples; injectivity of the file names; language of the expression of C111. Proved: when the file names give the numbers of samples, the conversion to memory replaces every data set file (list, subset, in memory or file backed) by the same samples in memory and leaves all other files, converting again changes nothing, the conversion to lists writes the same samples beside the sources and leaves these; the file backed conversion writes every sample and holds the same samples, and converting back restores the data set; an unknown format is refused exactly when there is a source; the sample files of a moved data set are found exactly when all of them are in the new directory. Refuted: a file whose name gives another number replaces the data set with that number; lists are never read back; the file backed conversion cannot be run again since it replaces its source; two data sets of one directory share their sample files; the internal directory of a moved data set cannot be updated (TypeError). |
| C121 Comparison figures show the stress of each model under its name | partial | `compare_material_models.py` 52-205, `plot_prediction_files.py` 34-105 (CompareModel, CompareProps; responses of ResponseModel, drawing and principal stress figures not modelled) | Columns by induction over the dictionary of paths; the dictionary kept between components as an invariant; rows untouched after a failed update in the loop of C61. Proved: the figures of the comparison show, for every component of the problem, the times and that component of the stress path of every model under its name, in order, then of the reference, whatever the order of the components; the comparison succeeds when there is a model and the paths are complete; the figures of the predictions show the component of the ground truth and of every model under its label, and predictions with missing components or other times are refused. Refuted: a reference without models and, in three dimensions, an empty comparison end in a NameError; a model named reference is not shown; the stress path of a model that fails is shown with zeros from the failure on; a model labelled Ground-truth replaces the ground truth. |
| C122 Exported strain paths come back from their tables | partial | `export_strain_paths.py` 94-135, `read_csv_response_dataset.py` 50-92 (CsvPathsModel, CsvPathsProps; reader of ResponseModel; the text of the numbers is not modelled) | Columns by cases on the dimension; files by induction over the paths; uniqueness of sorted permutations for the order; language of the pattern. Proved: the table of an exported path has its times, its strain components in their columns and zeros elsewhere, in two and three dimensions; paths of other sizes are refused; the files are numbered by path; once each table has its stresses the data set holds exactly the exported times and strains, in the order of the numbers, whatever the order and the other entries of the directory. Refuted: the exported files as such cannot be read (ZeroDivisionError); the pattern of the response files has no end, so backup copies are read as further samples; a table without stresses is left out and the later samples are numbered otherwise than their paths. |
| C123 Convergence figures of noisy data attribute each loss to its noise case and size | partial | `plot_noisy_convergence_analysis.py` 46-510, 588-604 (NoisyConvModel, NoisyConvProps; table of ConvPlotModel; drawing not modelled) | Blocks of rows by induction over the noise cases; columns of a case by induction over the losses; an explicit figure equality for every grid; concrete witnesses for the refutations Proved: for every grid of noise cases and training sizes and every positive number of realisations, the figure has one curve per noise case, in order and under its own label, whose points are the mean and range of the losses of that case's own models; the abscissae are right when the training sets of all noise cases have the same sizes; labels are as many as the noise cases; a number of models that is no multiple of the number of noise cases is refused. Refuted: the sizes of the other noise cases are ignored, so a model trained on another number of paths is drawn at the size of the first case; models listed by size first give mixed curves without an error. |
| C124 A local model update leaves its realisations and nothing half done | partial | `local_model_update.py` 533-625, `noisy_uncertainty_quantification.py` 38-210 (LmuRunModel, LmuRunProps; realisations of UqModel, file search of FileFindModel; training, prediction and plots given) | Case analysis of the run with the laws of the realisations; induction over the list of cases Proved: an update succeeds exactly when the three data sets are found; it leaves them unchanged, removes the working directories and has exactly the asked realisations, each with its model and the prediction of that model; prediction alone keeps the models and other predictions; the noisy script succeeds exactly when each case does, and each case has its own realisations. Refuted: a missing data set is noticed only after the earlier model and predictions were removed; prediction alone without realisations succeeds with no prediction; failing plots leave the working directories; one failing case leaves the later cases undone. |
| C125 The boundary ring of a patch is its boundary, and inverted patches are rejected | partial | `patch_generator.py` 1367-1508, `patch.py` 240-273 (PatchPolyModel, PatchPolyProps; edges of DeformModel and PatchOptModel; shapely: area and centroid formulas, validity given) | Segments of glued chains; telescoping sums over closed rings for area and centroid under affine maps; straight edges by telescoping of the fractions; counting over the grid Proved, for all numbers and positions of nodes: the boundary ring of a two-dimensional patch is closed and runs once through each step of each edge; its area and centroid are those of the patch; under affine deformations the area is multiplied by the determinant and the centroid moves with the map, so that a rotation about the centroid followed by a translation moves the centroid by the translation; homogeneous deformations of valid rings are admissible exactly when the determinant is positive; the connected nodes are exactly the neighbouring existing nodes. Refuted: the ring is counter-clockwise, not clockwise as documented; in three dimensions every deformation is admissible, also an inverted one; inner nodes of Lagrangian elements are reported as connected by element edges. |
| C126 A passed check of the shape functions means correct shape functions | partial | `element/type/interface.py` 256-313 (ShapeCheckModel, ShapeCheckProps; elements of ElementModel; random points are arguments) | Boolean checks reflected into inequalities; nodal values and sums of C-element theorems; explicit wrong elements for the refutations Proved, for all elements and random points: the check passes exactly when the values at the nodes and the two sums are within the stated tolerances, and it passes for every element of the library whatever the points. Refuted that a passed check means correct shape functions: derivatives with exchanged directions or unbalanced in each direction pass at all points, since all components are summed together, and so do shape functions that do not sum to one at negative coordinates, since the points are drawn from the unit cube. |
| C127 The preview of a data set pruning shows the iterations of the run | partial | `pruning_dataset.py` 1366-1529 (PrunePreviewModel, PrunePreviewProps; run of PruningModel; splitting of DatasetModel) | Both loops follow the iterated schedule (induction on the fuel); floor and remainder arithmetic; computed counterexamples Proved, for all parameters, data set sizes, permutations and losses: the previewed sizes add up and follow the schedule; there are between one and the maximum number of iterations plus one rows; as far as both go, preview and run have the same development and unused sizes; the run rounds the training size up and the preview down. Refuted: the preview ends before the run (minimum testing size, minimum ratio), goes on after the run has ended (leftover samples counted to the testing data set), and announces smaller training data sets. |
| C128 The pruned samples are those of the smallest loss | partial | `pruning_dataset.py` 743-754, 1007-1083 (PruneLossModel, PruneLossProps; names of MeanMetricsModel; sorting of PruningModel) | Uniqueness of the sorted permutation of files with distinct numbers; smallest losses from sortedness; computed counterexamples Proved, for all directories: the losses come in the order of the sample numbers whatever the listing order and the other files; when every tested sample has its file the chosen positions are distinct and those of the smallest losses; a directory without results or with results without loss is refused. Refuted when a file is missing or doubled: positions instead of sample numbers are used, so that other samples are pruned. |
| C129 The record, summary and plots of a pruning show its iterations | partial | `pruning_dataset.py` 144-281, 914-950, 1126-1308 (PruneTableModel, PruneTableProps; run of PruningModel) | Induction over the iterations with fresh keys; sizes of the run from C127; tables by maps over the iterations Proved, for all prunings, testing types, losses and errors: every iteration has its entry with the sizes of its data sets and the values of its testing types; development and unused, and training and validation shares add up, in the record and in the summary; the plotted tables hold the errors over the share of the full data set, with the threshold above the first error; the curve of the unused data has no first point. Refuted: without the errors of the first iteration the plots with threshold fail with a TypeError although the losses are there, and a pruning without testing types cannot be plotted (NameError). |
| C130 Stress paths in the principal stress space are shown with their own values | partial | `gen_response_dataset.py` 1196-1490 (StressSpaceModel, StressSpaceProps; invariants of ResponseModel, rotation of YieldPlotModel; eigenvalues and random orders are arguments; drawing not modelled) | Coefficients of the characteristic polynomial, discriminant of the cubic for the bound of the Lode parameter; permutations for the sorting; arrays by induction over the paths. Proved, for all stress tensors with real eigenvalues: the principal stresses are the eigenvalues in descending order; the triaxiality is the mean stress over the von Mises stress, the Lode parameter lies in [-1, 1] and is the normalised third invariant (1/3 and 1 in uniaxial tension); the pi stresses in any order of the principal stresses are the hydrostatic part and a vector with the magnitude of the deviatoric part; with paths of the same length the figures and distributions hold exactly these values. Refuted: the absolute tolerance on J2 makes the result depend on the units; paths of different lengths raise ValueError; the distributions of paths of different lengths contain null rows of no path. |
| C131 Training plots show the recorded histories | partial | `model_training.py` 490-539, 590-634, 683-721, `rnn_material_model/train_model.py` 308-345 (TrainPlotModel, TrainPlotProps; record of FinderTrainModel; labels of axes and drawing not modelled) | Drawn points are the rows with two values; padding adds none; induction over the histories; distinct file names from distinct parameters; round trip of the record (C100). Proved, for all numbers and lengths of histories: the loss figure has one labelled curve for each process with exactly the epochs that have a value, also with logarithms; the learning rate figure has all rates and histories of other lengths are refused; every parameter has its own file, curve and bounds; the plots of a saved training show its losses, validation losses and rates. Refuted: a parameter without bounds raises KeyError for all parameters; a record without learning rates has no plot of its losses either. |
| C132 Checked hybridized models can be evaluated with their scalers | partial | `hybrid_model.py` 603-709, 806-853, `transfer_learning.py` 285-345 (HybScalerModel, HybScalerProps; channels are those of C42) | Cases on the attributes of a model; induction over the models of a channel against a relational composition. Proved, for all models, scalers and features: the check passes exactly when every model of normalised features has the scalers it needs and otherwise raises RuntimeError; a checked channel whose normalised models have the method data_scaler_transform is evaluated to the composition of residual connection, normalisation, model and denormalisation; the output of the hybrid model is normalised with its own scaler or refused. Refuted: a model that passes the check but whose class lacks the method (all recurrent classes) fails in every evaluation. |
| C133 Figures of reaction forces and loss components show the computed histories | partial | `process_specimen_data.py` 171-224, `material_discovery.py` 3018-3066 (HistFigModel, HistFigProps; sets of ReactSetsModel; scales and labels of axes not modelled) | Distinct files from the distinct labels of the sets and injective prefixes; points by index; induction over the rows. Proved, for all boundary condition codes, forces, displacements and numbers of nodes, dimensions and times: every Dirichlet set has its own file with one point for each time, the net reaction force over the time step or over the displacement of the reference node; a label after the last node is refused; the figure of the loss components has one curve for each row of the stored history, under distinct labels. Refuted: label 0 is not refused, the displacement of the last node is shown instead. |
| C134 Response path figures show the equivalent strain and stress of every path | partial | `gen_response_dataset.py` 948-1137, 1593-1720 (EqPathModel, EqPathProps; tensors of ResponseModel; drawing and labels of axes not modelled) | Squared norms written out and compared (field, injectivity of the square root); curves by induction over paths and times with the read-back of tensors (C75). Proved, for all tensors, paths and components: every path has its curve with the plotted equivalent strain and stress at each of its times; these are the von Mises values exactly when the mean value is zero or three times the mean value is the sum of the shear components; the figure of the components shows each component over the times; the figure and histogram of a state variable show exactly its values. Refuted: the mean value is subtracted from all components, so uniaxial tension is shown with the square root of two times its stress and a hydrostatic stress with three times its mean value; a shorter path goes back to the origin; the figure of finite strains shows zeros; one history with a list of paths of the same length raises TypeError or IndexError instead of RuntimeError; a path of one value is shown at all times. |
| C135 Plot functions show every data set with its label, style and range | partial | `ioput/plots.py` 51-240, 428-664, 2324-2358 (PlotBaseModel, PlotBaseProps; axes, ticks, grid, legend and drawing not modelled) | Decomposition of strings; arithmetic of the product of cycles; minima and maxima by membership, bounds of the mean by induction, sums of squares that vanish. Proved, for all data arrays, labels and strings: odd numbers of columns and other numbers of labels are refused, otherwise every pair of columns is a curve with its points, label and style; styles repeat exactly every 42 curves; the shaded area of min-max goes from the least to the greatest realisation and contains the mean, that of mean-std is symmetric with half width 1.96 standard deviations and empty exactly for equal realisations; without LaTeX exactly the dollar signs at the ends are removed. Refuted: a formula followed by text keeps a dollar sign; curves 42 apart look the same; one NaN realisation leaves the mean of the point out. |
| C136 Bar charts and box plots show every value once and apart | partial | `ioput/plots.py` 1599-1757, 1760-1945 (BarModel, BarProps; axes, limits, colours, mean lines of boxes and drawing not modelled) | Membership in enumerations; intervals ordered by group and position; the first bar past the group by induction; maps over the columns. Proved, for all numbers of groups, data sets and values: a chart is refused exactly when a data set does not have one value for each group (or averages of nothing are asked for); otherwise every value has exactly its bar, every group its label and every average line is the mean; bars of the default width never overlap; every column of box plots has its box and label, in one subplot or its own. Refuted: bars of a given width whose group is wider than one overlap those of the next group; the label of a group is under the middle of its bars only for two data sets; box plots of no columns in subplots use an unbound name. |
| C137 Boundary nodes and edge nodes of a patch are those at the ends of the mesh | partial | `data_generation/spdg/patch.py` 140-147, 293-352, 413-416 (BndEdgeModel, BndEdgeProps; order of the labels not modelled) | Membership in slices; counting by sums over the ends and the inside of each dimension; parity of the ends of quadratic meshes. Proved, for all shapes and matrices of nodes: the boundary labels are, without repetition, exactly those with an index at an end of its dimension, the edge labels exactly those with at least two, and the other boundary nodes of a mesh with distinct labels are exactly inside one face; their numbers are abc-(a-2)(b-2)(c-2) and 4(a+b+c)-16; edges of quadratic meshes have all their nodes; a patch is accepted exactly when all prescribed nodes are on the boundary. Refuted (outside meshes made by the generator): in two dimensions label 0 of a missing boundary node is not left out, and is accepted as a prescribed node. |
| C138 The setup of a pruning checks its data sets and keeps the base data sets | partial | `miscellaneous/pruning/pruning_dataset.py` 312-396 (PruneDirsModel, PruneDirsProps; file system of NamesModel) | Induction on the testing types; prefixes of paths; the directories made by make_directory (C41). Proved, for all file systems, directories and testing types: without the pruning, base, training or a requested testing directory, or with an unknown type, RuntimeError is raised and nothing changes; otherwise the results are the named directories, every testing type has its directory (none for the unused data), the output directories exist, and all files and directories outside them, in particular the base data sets, are kept. Refuted: pruned data sets of an earlier pruning are removed without notice. |
| C139 Scatter plots, curves in space and histograms show their data with their labels | partial | `ioput/plots.py` 666-860, 1371-1597, 1948-2120 (ScatterModel, ScatterProps; bins and counts, axes and drawing not modelled) | Induction on data arrays and rows, with the ranges of C135; division of columns by three. Proved, for all data arrays and labels: every three columns are one curve with its points and label, other numbers of columns or labels are refused; with error bars every data array is a series with its label whose bars go from the least to the greatest realisation around the mean; every data set has its histogram and a legend is drawn exactly when there is a label. Refuted: without error bars (the default) the scatter plot is empty for all data; the labels of histograms are never passed on, so no histogram has its label in the legend. |
| C140 The convexity figure shows the boundary, the parameter paths and the search domain | partial | `simulators/fetorch/material/models/standard/lou.py` 1838-1950 (ConvFigModel, ConvFigProps; colours, markers and saving not modelled) | Induction on the path: tails and differences are the consecutive points. Proved, for all boundaries, paths and domains: the boundary and every path have their line with their points and label (path lines are hidden exactly when arrows are asked for), the arrows are exactly those from every point of a path to the next one, n - 1 for n points, and the rectangle has the limits of the search domain as corners. Refuted: the arrows cannot be switched off, they are drawn for every path of two points or more whatever the option. |
| C141 The mean metrics of several processes are computed, saved and shown one by one | partial | `utilities/output_prediction_metrics.py` 24-90 (ProcMetricsModel, ProcMetricsProps; files and directories of MeanMetricsModel) | Induction on the processes with the text left so far; values by C89, read-back by the round trip of the file. Proved, for all processes, directories, metrics and earlier files: every process has the number of samples and the mean metrics (C89) of its own directory, in order; saving appends one block for each process and keeps what was there, a new file has a title; the display shows the same text as a new file; the first failing process decides the error, the blocks before it stay and none of the later ones are added; a missing directory is refused. Refuted: after a second run with changed predictions every reader still gets the metrics of the first; saving with the default directory always raises TypeError. |
| C142 The figures of a data set show the strains, stresses and state variable of its samples | partial | `data_generation/strain_paths/interface.py` 241-313, `gen_response_dataset.py` 1722-1853 (DataPlotModel, DataPlotProps; state figure of EqPathModel; box plots, stress space figures and drawing not modelled) | Columns by index, induction on the samples; the state figure by C134; counting of the samples with a state variable. Proved, for all data sets, components and paths of the same length: each of the first five samples (and no other) has its figures of strains and stresses under its own name, with every component over its times; the figure of the state variable shows that of every sample over its own times, and there is none if no sample has it; other numbers of histories and paths are refused. Refuted: a path among the first five that is shorter than the longest one leaves all without figures (ValueError); if only some samples have the state variable the call fails with RuntimeError although the code means to skip the others; stress curves are named after the strain components. |
| C143 The norms, increments, distributions and pairs of strain paths are those of the paths | partial | `data_generation/strain_paths/interface.py` 314-591 (NormFigModel, NormFigProps; tensors of ResponseModel; bins, marginal distributions and drawing not modelled) | Read-back of tensors (C75), norms as sums; columns by index, induction on the paths. Proved, for all dimensions, symmetric component orders and paths, also of different lengths: the norm figure shows the norm of the tensor at each time of each path and nothing after its end, and its distribution has exactly these values; the figure of the increments shows from the second time on the norm of the difference to the time before; the distribution of a component has its values of all paths; the figure of a pair shows both components at each time. Refuted: in the figure of the increments every path starts at the origin whatever its first time is, and a shorter path goes back to it; the distribution of the increments has one zero too many for each path; finite strains have no increments; an order with 31 instead of 13 is valid but its pairs cannot be plotted. |


## What is not modelled

* Floating-point rounding, overflow, dtypes, devices, automatic differentiation, parallel execution.
* torch, numpy, scipy, sklearn, hydra and matplotlib themselves; the vectorising transform (vmap) is modelled by its
  per-sample function, masked selection (`torch.where`) by evaluating both branches.
* The finite strain branches of the material models, the plane stress problem type (rejected by the code as well),
  plotting (`ioput/plots.py` and the scripts that call it), `user_scripts` other than those in the table,
  the Links binary itself (its input and output files are modelled, C82-C85), hydra optimisation.
* Printed output, progress bars, pickle contents (files hold abstract values), wall-clock time.

## Trusted base

* The kernel of Coq 8.16.1 (all proofs end in `Qed`/`Defined`, no kernel check is switched off; no native compute).
* The reading of the Python code: each definition cites its lines, and simplifications are stated beside it.
* The axioms reported by `Print Assumptions`. Only axioms of Coq's standard library occur:
  `ClassicalDedekindReals.sig_forall_dec` and `ClassicalDedekindReals.sig_not_dec` (classical real numbers),
  `FunctionalExtensionality.functional_extensionality_dep`, and `Classical_Prop.classic`. The checker additionally
  lists opaque constants of the standard library that are not axioms of a theorem above: the sealed definitions of
  `Rdefinitions` (`RbaseSymbolsImpl.*`, `RinvImpl.*`) and `ssrunder.Under_rel.*`.

Assumptions of each theorem of MANIFEST.json, by file:


### No axioms ("Closed under the global context")

* `BatchFitProps.v`: collate_empty, collate_entries, collate_succeeds_iff, loader_epoch
* `BndEdgeProps.v`: boundary2_iff, boundary3_count, boundary3_iff, edges3_iff, inside_faces_iff, missing_node_refuted, prescribed_iff, serendipity_edges
* `CaseDirsProps.v`: absolute_subset_path, element_paths_own, element_paths_selected_refuted, models_removed, no_dataset_refused, noise_of_first_refuted, noise_regrouped, plots_removed, relative_subset_path_refuted, samples_redumped, samples_removed, testing_shared
* `CompareProps.v`: column_iff, comp_index_iff, curve_iff, label_ground_truth_refuted, narrow_prediction_refused, predicted_curves, reference_alone_refuted
* `ConvDataProps.v`: converted_again, converted_names, converted_to_lists, converted_to_memory, file_backed_again_refuted, file_backed_back, file_backed_only, file_backed_samples, list_not_source, list_sources_kept, lists_not_converted_back_refuted, misnamed_dataset_refuted, moved_dataset_refuted, rebased_paths, sample_file_missing, samples_read, shared_samples_refuted, unknown_format, update_is_identity
* `ConvPlotProps.v`: all_samples_one_type, all_samples_types_refuted, distinct_sizes_curves, equal_sizes_refuted, listed_samples_plotted, loss_rows, loss_rows_complete, missing_parameter_refused, outside_sample_refused, parameter_rows, single_column_refuted, single_realisation_refuted, testing_sizes_equal, truth_columns, uneven_realisations_refused, uq_rows
* `ConvergenceProps.v`: no_parameters_refuted
* `CsvPathsProps.v`: backup_table_refuted, exported_name_matches, read_csv_missing, response_pattern_iff
* `DataPlotProps.v`: strain_figures_refused, unequal_paths_refuted
* `DatasetProps.v`: add_feature_effect, concatenate_effect, concatenate_replace_refuted, concatenate_succeeds, file_distinct, mem_distinct, remove_conserves, rename_effect_partial, rename_in_memory_refuted, rename_swap_refuted, split_fails_runtime, split_partitions, split_succeeds, subset_distinct, subset_of_files_edits_lost, sum_default_weights_refuted, sum_features_effect
* `DenoiseCsvProps.v`: default_denoise_refused, plotted_label_zero_refuted, plotted_node_law
* `DictConvProps.v`: conv_leaf_wanted, convert_copy_effect_partial, convert_copy_flat, convert_copy_mutates_nested_refuted, convert_inplace_effect, convert_inplace_succeeds, converted_tree, to_tensor_copy_drops_refuted, to_tensor_inplace_flat, to_tensor_nested_refuted
* `EqPathProps.v`: mixed_state_refuted, single_state, state_components, state_numbers
* `FeatOptProps.v`: predict_batch_bounds
* `FeaturesProps.v`: add_features_effect, add_features_succeeds, infer_n_dim_correct
* `FileFindProps.v`: backup_dataset_refuted, dotless_dataset_refuted, file_not_found, find_file_law, find_file_refused, full_match_iff, only_file_found, pipeline_pattern_names, saved_dataset_found, script_pattern_names, search_iff, stale_dataset_refuted, unnumbered_dataset_lost
* `FinderDataProps.v`: dirichlet_check_iff
* `FinderParamsProps.v`: collected_law, labels_differ
* `FinderTrainProps.v`: loss_record_roundtrip, lr_record_missing, lr_record_roundtrip
* `ForwardProofs.v`: interchange
* `HardeningProps.v`: unknown_law_rejected
* `HistoryProps.v`: default_sets_refuted, dirichlet_sets_beyond, dirichlet_sets_law, dirichlet_sets_overlap, history_backup_refuted, history_flags_agree, history_in_time_order, history_labels_refuted, history_missing, node_data_in_time_order, node_zero_refuted, numerical_data_iff, numerical_data_refused, pointwise_sets_law, pointwise_sets_refused, set_label_injective, specimen_history_law, update_history_law
* `HybBuildProps.v`: arguments_override_file, boolean_indices_refuted, gru_hybridized_refuted, gru_scalers_refused, hybridization_schemes_refuted, hybridized_model_iff, layer_hybridized, partial_scalers_refuted, rcm_hybridized, scheme_descriptions
* `HybScalerProps.v`: check_scalers_iff, checked_channel, checked_model_fails_refuted, own_scaler
* `HybridProps.v`: channels_fail_iff_duplicate, channels_fail_runtime, channels_group_by_row, channels_order_independent, empty_hybrid_returns_input, forward_is_composition, good_channels_unique, normalised_hybridised_model_refuted
* `HydraPlotProps.v`: history_complete, history_law, job_objective_read_back, missing_job_refused, no_early_stopping_refuted, objective_value, similar_name_refuted
* `InpLinksProps.v`: dat_to_inp_lines, inp_constraints_refuted, inp_conversion_agrees, inp_every_mesh_refuted, inp_no_way_back_refuted, inp_round_trip
* `KfoldProps.v`: consecutive_folds_refuted, cross_validation_otherwise, cross_validation_refuted, fold_sizes_close, folds_partition, folds_refused
* `LinksFileProps.v`: links_file_round_trip, links_file_written_iff, links_free_dof_refuted, links_mesh_of_simulation, links_phase_refuted, links_quad8_refuted, links_several_types, links_title_refuted, links_width_refuted
* `LinksMatProps.v`: links_drucker_prager_section, links_elastic_section, links_hardening_points, links_lou_section, links_material_missing, links_material_unknown, links_materials_clean, links_materials_free, links_materials_sections, links_von_mises_section, links_wide_number_refuted
* `LinksResultsProps.v`: check_phases_iff, default_params_problem, global_results_law, input_file_fresh, input_params_law, no_results, node_results_law, results_agree_with_history, run_stale_refuted, run_success, single_node_refuted, trailing_slash_refuted, truncated_file_refuted
* `LmuRunProps.v`: lmu_missing_data_refuted, lmu_nothing_predicted_refuted, lmu_plots_fail_refuted, lmu_prediction, lmu_update, lmu_update_realisations, noisy_case_trained, noisy_grid_iff, noisy_grid_stops_refuted
* `LocalPathsProps.v`: local_paths_finite, vectorised_label_refused, vectorised_paths_law
* `MatDataProps.v`: collect_exact, trials_law
* `MatrixProps.v`: problem_type_orders
* `MeanFileProps.v`: label_refuted, mean_file_round_trip, nan_metric_refuted, same_size_refuted
* `MeanMetricsProps.v`: sample_name_found, sample_name_refuted
* `MeshProps.v`: element_configuration_value, element_configuration_zero_label
* `MetricsProps.v`: get_pytorch_loss_labels, metrics_missing_file, mre_empty
* `ModelFileProps.v`: hybrid_restored, no_directory_fails, rc_restored_defaults, rc_restored_partial, rc_restored_refuted, restore_from_file, restored_never_saves, set_fitted_scalers_refuted, set_scalers_effect, set_scalers_restored
* `NamesProps.v`: make_directory_fails_refuted, make_directory_fresh, make_directory_overwrite, make_directory_overwrite_succeeds, new_file_path_fresh, new_file_path_is_directory_refuted, predictions_subdir_fresh
* `NoiseProps.v`: inject_missing_directory, noise_setup, positions_distinct
* `NormFigProps.v`: transposed_pair_refuted
* `ParamTreeProps.v`: parameter_dict_conflict, parameter_dict_exact, parameter_dict_overwrite_refuted, parameter_dict_top, path_injective, path_name
* `PatchDataProps.v`: dataset_otherwise, dotted_name_refuted, generated_patches, no_dataset_refuted, node_file_refused, node_files_written, other_name_refuted, patch_local_paths, patches_found, single_patch_refuted, stored_patches_again, unsaved_patches_refused
* `PatchOptProps.v`: corners_bc_dictionary, corners_bc_refusal, edge_labels_bijective, edges_orders_option, no_conditions_no_constraint_refuted, random_bc_count
* `PatchPolyProps.v`: connected_iff, connected_number, inner_node_refuted, ring_length, ring_segments
* `PlotBaseProps.v`: cycle_style_iff, enclosure_refuted, plot_xy_law, styles_distinct, styles_repeat_refuted, tex_str_idempotent, tex_str_latex, tex_str_law
* `PredArraysProps.v`: acc_p_strain_refuted, model_copy_refuted, model_samples_in_order, no_ground_truth_refuted, prediction_arrays_all, prediction_arrays_law, prediction_arrays_order, prediction_arrays_refused, time_series_law, time_series_of_models
* `PredictProps.v`: loss_without_targets, normalised_loss
* `ProcMetricsProps.v`: display_is_file, failing_process, processes_law, saving_refused, updated_metrics_refuted
* `PruneDirsProps.v`: base_datasets_kept, earlier_pruning_refuted, setup_not_ready, setup_ready
* `PruneLossProps.v`: chosen_are_smallest, losses_in_order, losses_refused, missing_sample_refuted, second_file_refuted
* `PrunePreviewProps.v`: preview_agrees, preview_number, preview_ratio_refuted, preview_rows, preview_step_iff, preview_too_long_refuted, preview_too_short_refuted, preview_train_refuted, run_training_size
* `PruneTableProps.v`: record_law, run_record, unused_first_point
* `PruningProps.v`: iteration_directory_shared_refuted, proportional_stall_refuted, pruned_have_smallest_loss, pruning_conserves, pruning_step_conserves, pruning_step_counts, pruning_step_stops, validation_file_overwritten_iff, validation_file_overwritten_refuted
* `ReactSetsProps.v`: copy_labels_length, copy_labels_ok, copy_labels_values, plotted_all, plotted_default_refuted, plotted_list, plotted_node_zero_refuted, react_elements
* `RegularMeshProps.v`: phases_follow_elements
* `RemoveElementsProps.v`: remove_displacements, remove_error_iff, remove_result
* `ResponseProps.v`: strain_tensor_count_refuted
* `ResponseSetProps.v`: csv_to_files_refuted, known_names
* `ResumeProps.v`: load_removes_later, optimizer_choice
* `ScatterProps.v`: histogram_label_refuted, histogram_law, xyz_law, xyz_refused
* `SpecimenProps.v`: specimen_coverage_refuted, specimen_labels_refuted, specimen_layout_refuted, specimen_mesh_refused, specimen_mesh_round_trip, specimen_mesh_sound
* `StateFileProps.v`: backup_file_breaks_save_refuted, best_without_epoch_refuted, dotted_name_deletes_other_model_refuted, load_returns_saved_epoch, one_best_file, posterior_best_survives_refuted, save_epoch_effect, state_files_refine_store_partial, training_state_saves_both
* `StateStoreProps.v`: commit_then_isolated, commit_without_copy_refuted, forward_modes_agree, forward_sequential_element_converged, forward_sequential_time_converged, get_without_copy_refuted, standard_model_init_refuted, state_store_refines_partial, update_current_keeps_converged
* `StrainPathProps.v`: cyclic_path_shape, cyclic_path_structure, cyclic_subset, generate_fails_iff, generate_length
* `ThermoParProps.v`: training_on_grid
* `TransferProps.v`: get_device_refuted, hybridization_known, regressor_init_ok, set_device_checks
* `UniStressProps.v`: forward_shape, forward_unknown
* `UniaxialProps.v`: uniaxial_code, uniaxial_compression_refuted, uniaxial_file, uniaxial_group, uniaxial_group_lines, uniaxial_nodes, uniaxial_rows, uniaxial_specimen, uniaxial_unknown, uniaxial_width_refuted
* `UqProps.v`: all_samples_first, all_samples_second_refuted, backup_realisation_refuted, fewer_realisations_refuted, listed_samples, missing_realisation_refuted, no_loss_refused, realisations_in_order, uq_losses_exact, uq_predicted, uq_trained
* `VmapProps.v`: masked_loop_early_exit, masked_loop_elastic

### `ClassicalDedekindReals.sig_forall_dec`

* `BarProps.v`: box_plots_law, box_plots_refused
* `CompareProps.v`: fill_iff
* `ConvFigProps.v`: convex_lines
* `CsvPathsProps.v`: export_frame_law, exported_files
* `DataPlotProps.v`: dataset_plots_law, mixed_states_refuted, strain_figures_law, stress_names_refuted
* `DenoiseProps.v`: filter1_length, filter1_value
* `EqPathProps.v`: component_figure_law, single_value_refuted, state_figure_law
* `FeaturesProps.v`: build_reads_components, store_build_inverse, store_reads_tensor
* `FinderDataProps.v`: list_weights_dropped, refused_call_refuted, refused_codes_unchanged, set_specimen_iff, set_specimen_result
* `ForceDispProps.v`: label_zero_refuted, node_beyond_refused, node_next_refuted
* `ForwardProps.v`: element_config_value
* `GradientProps.v`: expand_reduce_roundtrip, full_gradient_vectorised, sym_gradient_vectorised
* `HistFigProps.v`: loss_components_law, reactions_by_displacement, reactions_by_time, reference_refused, reference_zero_refuted
* `LayerProps.v`: voldev_forward_shape
* `MatDataProps.v`: backup_copy_refuted
* `MatrixProps.v`: state_2d_3d_roundtrip, state_2d_mat_vectorised, state_2d_vectorised
* `MeanFileProps.v`: convergence_other_process, convergence_rows, convergence_skip_refuted
* `MeshProps.v`: assembly_out_of_range, extraction_value, vectorised_assembly_out_of_range_refuted
* `ModelFileProps.v`: gru_restored
* `NormFigProps.v`: comp_hists_law, pair_figure_law
* `PatchOptProps.v`: edges_labels_checked_refuted, edges_range_option
* `PredArraysProps.v`: leading_zero_refuted
* `RcProps.v`: rc_response_layout, two_pieces
* `ReactSetsProps.v`: copy_labels_missing_refuted, react_compare, react_displayed, react_labels_distinct, react_set_contents, react_sets_cover
* `ResponseProps.v`: build_tensor_full, build_tensor_reads, store_tensor_reads, strain_tensor_complete_partial, strain_tensor_incomplete_refuted
* `TensorProps.v`: voigt_stress_vectorised
* `TrainPlotProps.v`: parameter_figures_law, unbounded_parameter_refuted
* `TransferProps.v`: hybridization_identity, poly_degree_zero_refuted
* `UniStressProps.v`: gru_forward
* `UqProps.v`: columns_law, realisation_table_law

### `ClassicalDedekindReals.sig_forall_dec`, `FunctionalExtensionality.functional_extensionality_dep`

* `BarProps.v`: chart_law, chart_refused, default_bars_apart, group_label_refuted, group_label_two, wide_bars_refuted
* `BatchFitProps.v`: min_max_batch_fit_pooled
* `ConvFigProps.v`: arrows_off_refuted, convex_arrow_count, convex_arrows, convex_domain
* `ConvPlotProps.v`: band_is_relative_error, constant_units_refuted, normalize_affine, normalized_band_refuted, perfect_constant_refuted, r2_at_most_one, r2_is_one, r2_unit_invariant
* `ConvergenceProps.v`: convergence_iff_all_settled_partial, finder_history_is_epoch_average, minimum_length_of_last_only_refuted, parameter_converged_iff_settled, rc_epoch_average_refuted, rc_history_includes_previous_value, zero_trigger_refuted
* `CsvPathsProps.v`: backup_read_twice_refuted, completed_paths_read, exported_alone_refuted, sample_number_refuted
* `DeformLoopProps.v`: boundary_displacements, corners_in_range_partial, face_linear_refuted, face_uniform_partial, fixed_corner_partial, fixed_corner_refuted, node_label_exact, node_label_near, zero_order_parallel_partial, zero_order_parallel_refuted
* `DeformProps.v`: polynomial_unique, sampler_interpolates, solver_exists
* `DenoiseCsvProps.v`: denoise_any_order, denoise_csv_law, denoise_keeps_data_refuted, denoised_affine, denoised_iff, denoised_law, denoised_range, initial_displacement_refuted, last_displacement_refuted, two_simulations_refuted, unknown_denoise_refused
* `DenoiseProps.v`: denoise_fails_iff, denoise_features, denoise_linear, denoise_shape, even_window_refuted, filter1_polynomial, mean_kernel_odd, moments_suffice, moving_average_affine, moving_average_constant, moving_average_range
* `DruckerProps.v`: dp_return_linear
* `EarlyStopProps.v`: best_loss_never_increases, best_state_is_first_minimum, early_stop_iff_unimproved_partial, nan_first_validation_refuted, no_best_state_without_number, no_early_stop_before_trigger, validation_history_per_epoch
* `ElasticProps.v`: anisotropic_constructor_raises
* `ElementProps.v`: element_sizes, shapefun_deriv_complete, shapefun_deriv_correct, shapefun_linear_complete, shapefun_nodal_delta, shapefun_partition_of_unity, shapefun_quadratic_complete
* `FeatOptProps.v`: features_option_effect, features_option_known, features_option_widths, plane_features_refuted
* `FeaturesProps.v`: deviatoric_feature_refuted, features_need_three_dimensions, sample_order_refuted, strain_feature_path, strain_features_are_invariants, strain_features_objective, stress_features_split, stress_features_trace
* `FinderDataProps.v`: reaction_columns, reaction_columns_refuted, reaction_hist_law, reactions_total
* `FinderParamsProps.v`: collected_within_bounds, label_collision_refuted
* `FinderTrainProps.v`: finder_best_state_refuted, finder_constant_rate, finder_epochs, finder_files_keep, finder_first_nan_refuted, finder_one_epoch_refuted, finder_rate_refuted, finder_run, finder_save_every_zero, finder_scheduled_rate
* `ForceDispProps.v`: force_disp_curve, gauss_point_path, narrow_file_refused, out_dataset_law, plane_dataset_refuted, reaction_count_refused, single_reaction_refuted
* `ForwardProps.v`: first_displacement_lost_refuted, increments_from_rest_partial, increments_telescope, singles_are_assembly
* `GradientProps.v`: expand_apply, full_gradient_apply, jacobian_check_exact, patch_test, rigid_motion_no_strain, shapefun_deriv_defined, spatial_gradient_exists, strain_is_symmetric_gradient
* `GruProps.v`: default_hidden_bounded
* `HardeningProps.v`: linear_negative_slope_refuted, linear_slope_is_derivative_partial, linear_value, on_curve_unique, pl_bounds, pl_continuous, pl_first_slope_refuted, pl_interpolates, pl_law_on_curve, pl_lipschitz, pl_monotone, pl_slope_at_points, pl_slope_is_derivative_partial, pl_too_few_points
* `HydraPlotProps.v`: best_job, last_history_refuted, one_process_plot, uneven_processes_refuted
* `LawTableProps.v`: compared_curves, discretizer_output, saved_comparison_refuted, table_ascending, table_below_concave, table_error, table_law_at_points
* `LayerProps.v`: stress_features_compose, voldev_batch_independent, voldev_forward_effect, voldev_forward_pure_refuted
* `LinksLoadProps.v`: even_loading, fit_exists, load_count, polynomial_drift, polynomial_path, stepped_bounds, stepped_path, stepped_refused, written_drift, written_total_refuted
* `LinksMatProps.v`: links_beyond_two_refuted, links_hardening_error, links_hardening_error_tight, links_linear_hardening_exact, links_one_point_refuted, links_table_points
* `LossProps.v`: dirichlet_sets_loss_partial, dirichlet_sets_loss_zero_iff, dirichlet_sets_reaction, dirichlet_sets_without_free_refuted, hist_loss_nonneg, hist_loss_zero_iff, loss_components_entries_partial, loss_components_normalisation_refuted, loss_components_total, loss_nonneg, loss_scaling, loss_zero_iff, norm_force_is_minmax, normalised_loss_at_equilibrium, normalised_loss_refuted, normalised_loss_zero_iff_partial, time_varying_codes_ignored_refuted, vectorised_hist_loss, vectorised_pointwise_loss
* `LouProps.v`: deviatoric_invariants, hydrostatic_independence, invariants_isotropic, principal_invariants, second_invariant_norm
* `LouUpdateProps.v`: lou_third_invariant_derivative
* `MatDataProps.v`: assembled_sets, integer_fraction_refuted, kept_all, kept_law, ratios_accepted, reduced_samples, separated_names, unknown_type_first_refuted, unknown_type_overwrites_refuted
* `MatrixProps.v`: state_3d_vectorised
* `MeshProps.v`: assembly_adjoint, assembly_order_independent, assembly_untouched, assembly_value, vectorised_assembly
* `MetricsProps.v`: mre_bound, mre_gradient_partial, mre_gradient_refuted, mre_is_mean, mre_modes, mre_null_target_gradient, mre_permutation, mre_uniform, mre_units, mre_zero_iff
* `MixedTangent.v`: vmap_mixed_multiplier
* `ModelFileProps.v`: model_scaler_roundtrip, unfitted_model_refuses
* `NoiseProps.v`: default_weights_refuted, het_covariance, hom_covariance, inject_keeps_data_refuted, inject_law, inject_uniform_bounded, noise_gaussian, noise_gaussian_negative, noise_het_gaussian, noise_het_uniform, noise_het_weights, noise_null, noise_order, noise_spiked, noise_uniform, noise_uniform_bounded, noise_variability_refuted, noisy_frame_columns
* `ParamProps.v`: constraint_applies_return_mapping, constraint_leaves_bounds_refuted, constraint_one_parameter_refuted, constraints_only_lou, construction_iff_admissible, construction_stores_initial_values, enforcing_bounds_projects, equal_bounds_refuted, finder_enforces_bounds, invalid_bounds_rejected, normalise_inverts, parameters_always_within_bounds
* `PatchOptProps.v`: averaged_edges_agree, edge_displacement_kept_refuted, plane_edges_unmatched, random_bc_rigid_motion_refuted
* `PatchPolyProps.v`: area_affine, centroid_affine, clockwise_refuted, homogeneous_admissible, inverted_brick_refuted, reference_ring, rigid_motion_centroid
* `PredArraysProps.v`: prediction_arrays_mse
* `PredictProps.v`: perfect_predictions, predict_batch_size, predict_empty, predict_needs_targets, predict_unknown_loss, predict_values, predict_without_targets_refuted, scaler_rowwise, summary_value_partial, zero_loss_reported_refuted
* `PruneTableProps.v`: no_testing_refuted, plots_law, size_table_law, summary_law, threshold_refuted
* `ReactSetsProps.v`: copy_labels_atomic_refuted, copy_labels_nodes_refuted, react_later_codes_refuted, react_sets_total
* `RegularMeshProps.v`: boundary_is_boundary, connectivities, mesh_coordinates, mesh_coordinates_distinct, mesh_labels_consecutive, mesh_spans_patch, no_orphan_nodes
* `ResponseProps.v`: invariants_j2, invariants_principal
* `ResponseSetProps.v`: csv_bad_name, csv_dataset_law, csv_dataset_read, csv_no_stress_refuted, denoised_first_row
* `ResumeProps.v`: best_replaced_refuted, decay_never_increases, exp_decay_rate, initial_file_refuted, linear_default_refuted, linear_rate, optimizer_state_refuted, resumed_rate_refuted, scheduler_refused, session_law, session_runs, stateless_resume_continues, step_decay_rate, zero_step_refuted
* `ScalerProps.v`: minmax_constant_feature_refuted, minmax_fit_range, minmax_roundtrip_back, minmax_roundtrip_partial, minmax_unfitted, standard_roundtrip
* `ShapeCheckProps.v`: check_iff, check_passes, positive_points_refuted, swapped_derivatives_refuted, unbalanced_derivatives_refuted
* `StrainPathProps.v`: bound_scale_keeps_zero, generated_proportional_partial, generated_random_partial, proportional_linear, proportional_out_of_bounds_refuted, proportional_starts_at_zero, proportional_within_bounds_partial, random_out_of_bounds_refuted, random_within_bounds_partial
* `StressSpaceProps.v`: principal_figure_law, principal_sorted
* `TensorProps.v`: dev_plus_vol_3d, dev_projection_2d_refuted, dev_projection_3d_idempotent, dev_projection_3d_partial, dev_projection_trace, double_contraction_adjoint, dyad_contractions, fo_dinv_sym_apply, fo_dinv_sym_is_derivative, id_operators_apply, voigt_projections, voigt_strain_roundtrip, voigt_strain_vectorised
* `TfactProps.v`: scaled_history, tfact_comment_refuted, tfact_even, tfact_extra_rows, tfact_missing_rows_refuted, tfact_no_section, tfact_of_even, tfact_of_written, tfact_read
* `ThermoParProps.v`: argmin_least, draw_between_neighbours, draw_covers_neighbourhood, draw_in_bounds, hard_table_ascending, hard_table_law, hardening_saturates_refuted, polynomial_is_horner, repeated_value_refuted, shear_isotropic, slope_bounds
* `TrainProps.v`: epochs_performed_partial, params_check_discards_early_stop_refuted, requested_epochs_refuted, saved_best_has_other_loss_refuted, single_epoch_refuted, tied_best_epochs_refuted, training_outcome_partial
* `TransferProps.v`: hybridization_additive, poly_at_zero, poly_batch_independent, poly_forward_value, poly_forward_width, poly_identifiable, poly_identity, poly_linear_in_weights
* `UniStressProps.v`: dataset_entries, key_collision_refuted
* `UniaxialProps.v`: uniaxial_prescription
* `UqProps.v`: loss_read_back, zero_loss_refuted
* `VBarProps.v`: vbar_2d_uniform, vbar_3d, vbar_patch_refuted, vbar_strain_value
* `VForwardNormProps.v`: state_history_law, stored_strain_refuted, vforward_normalised, vforward_refused
* `VmapProps.v`: vmap_agrees_with_standard, vmap_multiplier_is_newton
* `VonMisesProps.v`: linear_one_correction
* `YieldPlotProps.v`: grid_short_refuted, null_plane_refuted

### `ClassicalDedekindReals.sig_forall_dec`, `ClassicalDedekindReals.sig_not_dec`, `FunctionalExtensionality.functional_extensionality_dep`

* `BatchFitProps.v`: batch_fit_empty, batch_fit_missing_feature, batch_fit_same_data, fit_minmax_from_dataset, fit_minmax_normalises, fit_standard_from_dataset, fit_standard_normalises, fit_unknown_type, mean_std_batch_fit_pooled
* `CompareProps.v`: compare_predictions_iff, compared_figures, comparison_succeeds, failed_model_refuted, model_named_reference_refuted, no_models_refuted
* `ConvPlotProps.v`: min_max_bar
* `DeformLoopProps.v`: boundary_2d, default_motion_refuted, edge_range_refuted, loop_admissible, loop_exhausted
* `DeformProps.v`: edge_def_ends, edge_frame_exterior, edge_frame_orthonormal, edge_frame_outward, edge_nodes_on_curve, edge_range_partial, euler_bunge, euler_identity, euler_rotation, random_rotation_orthogonal, rigid_motion_isometry, rigid_motion_needs_both, straight_edge, straight_edge_affine
* `DruckerProps.v`: dp_failure_persists, dp_irreversible_partial, dp_isochoric_apex_fails, dp_linear_never_fails, dp_plane_strain, dp_step_3d
* `DruckerTangent.v`: dp_apex_tangent_is_derivative, dp_cone_derivative, dp_cone_tangent_is_derivative_partial, dp_cone_tangent_refuted, dp_cone_tangent_wrong, dp_elastic_tangent_is_derivative
* `ElasticProps.v`: elastic_path_independent_2d, elastic_path_independent_3d, elastic_splitting, isotropic_tangent_is_hooke, symmetric_modulus_name_refuted, tangent_has_material_symmetry, technical_constants_consistent
* `EqPathProps.v`: eq_figure_law, eq_figure_shown, eq_strain_iff, eq_stress_iff, finite_figure_refuted, hydrostatic_eq_refuted, short_path_refuted, uniaxial_eq_refuted
* `ForwardProofs.v`: element_hist_path
* `ForwardProps.v`: modes_agree_partial, modes_succeed_and_agree_partial, no_time_steps_refuted, recurrent_modes_refuted, recurrent_time_mode_raises
* `GradientProps.v`: finite_strain_rejected, internal_forces_resultants, internal_forces_rigid_work, internal_forces_virtual_work
* `GruProps.v`: cell_is_gru_unit, gru_batch_members_independent, gru_batch_members_independent_default, gru_streaming, hidden_states_bounded, last_output_is_last_hidden, layers_are_stacked, output_lengths, outputs_are_causal
* `LayerProps.v`: elastic_forward_shape, elastic_layer_is_hooke_2d, elastic_layer_is_hooke_3d, elastic_layer_symmetry_refuted
* `LocalPathsProps.v`: element_paths_finite, local_paths_modes_agree, local_paths_modes_permuted, local_paths_selection_refuted, sequential_paths_law
* `LouProps.v`: boundary_next_to_change, boundary_side, boundary_within_tolerance, search_terminates, short_interval_refuted
* `LowPassProps.v`: denoise_low_pass_effect, denoise_low_pass_shape, low_pass_all_frequencies, low_pass_best, low_pass_compose, low_pass_contracts, low_pass_energy, low_pass_idempotent, low_pass_linear, low_pass_mean, low_pass_no_frequency, low_pass_orthogonal, low_pass_plot_partial, low_pass_plot_refuted, low_pass_spectrum, low_pass_tone
* `MatDataProps.v`: close_values_refuted, default_ratio_refuted, generate_succeeds, generated_sets, library_use_refuted, pipeline_sizes, ten_failures_refused
* `MatrixProps.v`: from_mf2_vectorised_full, from_mf2_vectorised_nokelvin_refuted, from_mf2_vectorised_sym_partial, from_mf4_vectorised_full, from_mf4_vectorised_sym_partial, get_mf2_vectorised, get_mf4_vectorised, incomplete_order_accepted, mf2_isometry_full, mf2_isometry_sym, mf2_roundtrip_back_full, mf2_roundtrip_back_sym, mf2_roundtrip_full, mf2_roundtrip_sym, mf2_roundtrip_sym_nokelvin_refuted, mf2_roundtrip_sym_vectorised, mf4_matmul_sym, mf4_matvec_sym, mf4_roundtrip_back_sym, mf4_roundtrip_full, mf4_roundtrip_sym, state_2d_from_3d_mat_sym, state_2d_from_3d_nsym, state_2d_from_3d_sym, state_3d_from_2d_nsym, state_3d_from_2d_sym
* `MeanMetricsProps.v`: directory_metrics_values, directory_order_irrelevant, no_samples_refuted, nrmse_null_sample, unknown_mean_refused
* `MetricsProps.v`: mav_within_rmse, mav_without_targets_refuted, metrics_need_targets, metrics_unknown_label, metrics_values, mse_is_training_loss, mse_zero_iff, rmse_squared
* `MixedProps.v`: mx_failure_persists, mx_history, mx_linear_update, mx_plastic_steps_off_surface, mx_step_2d_partial, mx_step_3d_partial, mx_step_refuted, mx_without_kinematic_hardening
* `MixedTangent.v`: mx_elastic_tangent_is_derivative, mx_elastic_tangent_is_derivative_2d, mx_linear_tangent_is_derivative, mx_linear_tangent_is_derivative_2d, vmap_mixed_core, vmap_mixed_tangent_refuted
* `ModelFileProps.v`: failed_fit_keeps_scalers_refuted, fit_scalers_effect, fitted_model_normalises
* `NoisyConvProps.v`: first_sizes_refuted, mixed_cases_refuted, noise_curves, noise_curves_right, noise_labels_checked, uneven_noise_cases
* `NormFigProps.v`: finite_increments_refused, inc_figure_law, inc_hist_refuted, inc_origin_refuted, norm_figure_law, norm_hist_law
* `ParamSyncProps.v`: friction_angle_conflict_refuted, sync_stores_physical_parameters_partial, unknown_parameter_rejected
* `PlotBaseProps.v`: mean_std_band, min_max_band, nan_realisation_refuted, plot_xny_law
* `ProcMetricsProps.v`: default_saving_refuted, processes_metrics
* `QuadratureProps.v`: element_quadrature_available
* `RcProps.v`: empty_path_refuted, offset_has_no_effect, rc_batch_members_independent, response_is_causal, response_is_incremental, same_past_same_response, strain_feature_refuted, vectorised_succeeds_partial, vectorised_success_agrees
* `ResponseProps.v`: elastic_response_3d, elastic_total_strain_refuted, recurrent_model_agrees, stress_path_law, unavailable_variable_refuted
* `ResponseSetProps.v`: dataset_all_successful, dataset_empty_refuted, dataset_first_successes, dataset_ten_failures, dataset_unknown_names, denoised_scaler_refuted, noisy_dataset_law, noisy_dataset_null, noisy_gaussian, noisy_heteroscedastic_import_refuted, noisy_normaliser_refuted, noisy_scaler_noise_refuted, noisy_uniform, noisy_uniform_bounded, regenerate_same, strain_dataset_failure, strain_dataset_law
* `ScalerProps.v`: standard_constant_feature_refuted, standard_fit_normalises, standard_fit_roundtrip
* `ScatterProps.v`: scatter_bars, scatter_default_refuted
* `StrainPathProps.v`: enforce_fails_iff, increments_leave_bounds_refuted, increments_met, zero_increment_refuted
* `StressSpaceProps.v`: added_zeros_refuted, invariant_data_law, lengths_refuted, lode_bounds, lode_value, pi_figure_law, pi_stress_law, triax_mean, triax_nan_iff, uniaxial_law, units_refuted
* `TensorProps.v`: voigt_work_conjugate
* `ThermoParProps.v`: parameters_accepted, parameters_refused, parameters_well_posed, sample_material_exists, yield_bounds
* `TransferProps.v`: elastic_layers_opposite_refuted, transfer_elastic_is_hooke_2d, transfer_elastic_is_hooke_3d, transfer_elastic_shape
* `UniStressProps.v`: elastic_uniaxial, first_strain_refuted, loose_tolerance_refuted, unconverged_silent_refuted, uniaxial_converged, uniaxial_path, uniaxial_unknown_model
* `VDruckerAgree.v`: vdp_agrees_with_standard, vdp_linear_agrees
* `VDruckerCases.v`: vdp_cone_tangent_refuted, vdp_isochoric_apex_fails, vdp_standard_agreement_refuted, vdp_yield_condition_refuted
* `VDruckerProps.v`: vdp_failure_persists, vdp_plane_strain, vdp_step_3d
* `VDruckerTangent.v`: vdp_apex_tangent_is_derivative, vdp_cone_tangent_partial, vdp_cone_tangent_wrong, vdp_elastic_tangent_is_derivative
* `VForwardNormProps.v`: normalised_modes_refuted
* `VForwardProps.v`: vforward_agrees
* `VmapProps.v`: vmap_consistency_partial, vmap_consistency_refuted, vmap_core_3d
* `VonMisesProps.v`: linear_update_exact, tiny_yield_stress_refuted, vm_failure_persists, vm_history_from_rest_partial, vm_history_partial, vm_step_2d_partial, vm_step_3d_partial
* `VonMisesTangent.v`: elastic_tangent_is_derivative, elastic_tangent_is_derivative_2d, linear_tangent_is_derivative, linear_tangent_is_derivative_2d, tangent_of_exact_return_partial
* `YieldPlotProps.v`: drucker_prager_cone, drucker_prager_law, drucker_prager_shear, pi_invariants, pi_inverse, pi_isometry, same_yield_stress_refuted, unloaded_inside, unloaded_outside_refuted, von_mises_agrees, von_mises_circle, von_mises_in_grid

### `ClassicalDedekindReals.sig_forall_dec`, `ClassicalDedekindReals.sig_not_dec`, `Classical_Prop.classic`, `FunctionalExtensionality.functional_extensionality_dep`

* `FeatOptProps.v`: schedule_decreases, schedule_reaches_end
* `HardeningProps.v`: law_selection, nadai_initial_slope_infinite, nadai_monotone, nadai_offset_refuted, nadai_slope_is_derivative_partial, nadai_value
* `LawTableProps.v`: compared_laws_refuted, custom_function, discretizer_refuted, nadai_table_error, table_saturates_refuted
* `LouProps.v`: atan2_polar, convex_surface_passes, convexity_check_exact, effective_stress_even, effective_stress_homogeneous, effective_stress_isotropic, reduces_to_drucker_prager, reduces_to_von_mises, return_mapping_partial, return_mapping_refuted, round_surface_passes
* `LouUpdateProps.v`: lou_apex_perfectly_plastic, lou_failure_persists, lou_flow_is_gradient, lou_jacobian_is_derivative, lou_last_correction_small, lou_plane_strain, lou_plastic_strain_decreases_refuted, lou_pure_shear_refuted, lou_residuals_are_backward_euler, lou_step_3d, lou_zero_third_invariant_raises
* `PatchOptProps.v`: mean_rotation_common, mean_rotation_opposite_refuted, mean_rotation_range, rotation_angle_exact, rotation_angle_range
* `QuadratureProps.v`: gauss_1d_degree_sharp, gauss_1d_exact, gauss_hexahedral_exact, gauss_quadrilateral_exact, gauss_tetrahedral_exact, gauss_triangular_exact
* `TrainPlotProps.v`: loss_figure_law, loss_figure_log, loss_figure_shown, loss_lr_law, plots_without_rates_refuted, standard_plots_law
* `VLouProps.v`: vlou_agrees_with_standard, vlou_negative_b_refuted, vlou_null_increment_refuted, vlou_singular_deviator_raises, vlou_step_3d
* `VonMisesProps.v`: nadai_virgin_refuted
* `YieldPlotProps.v`: batch_values, lou_agrees, lou_is_drucker_prager, lou_is_von_mises, name_order, normalised_sign, unknown_model, yield_isotropic

