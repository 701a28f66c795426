Print Assumptions, grouped (generated by tools/assumptions.py; 397 theorems)

== closed under the global context
  C37_option_validation
  C67_shafting
  C01_setup_terminates
  C02_calls_once_in_flow_order
  C03_acyclic_all_configured
  C03_no_spurious_error
  C04_configured_iff_upstream_acyclic
  C04_loop_reported_refuted
  C05_missing_port_raises
  C05_only_runtime_error
  C06_flags_select_groups
  C06_connected_once_and_same_name
  C06_all_inputs_connected_refuted
  C06_default_connects_partial
  C07_port_of_element
  C07_nested_port_refuted
  C08_options_pushed
  C09_one_design_point
  C09_failed_call_changes_nothing
  C09_points_kept_refuted
  C10_connections_reach_every_point
  C10_each_pair_connected
  C11_params_promoted_everywhere
  C11_first_value_kept
  C11_no_design_point
  C12_default_connections
  C12_no_skip
  C12_skip_string_refuted
  C44_values
  C44_warns_once
  C44_silences_others_refuted
  C68_sized
  C68_ducts_refuted
  C43_copy_port
  C43_copy_missing_port
  C43_copy_adder
  C43_copy_adder_error
  C43_copy_rejects_other
  C43_init_data
  C43_init_adder
  C42_modes
  C42_mode_roundtrip

== ClassicalDedekindReals.sig_forall_dec
  C33_impulse_and_area
  C44_get_refuted
  C19_tabular_refuted
  C71_mixer_second_refuted

== ClassicalDedekindReals.sig_forall_dec, ClassicalDedekindReals.sig_not_dec, Classical_Prop.classic, FunctionalExtensionality.functional_extensionality_dep
  C40_density_decreasing
  C40_pressure_decreasing_partial
  C51_state_derivatives
  C51_density_slope
  C51_density_slope_kinks
  C74_hydrostatic_partial
  C61_function
  C61_stations
  C61_ideal_gas
  C62_increasing
  C62_total_unique
  C63_stable
  C63_station
  C63_static_Ps
  C62_static_unique
  C64_pressure
  C21_trace_off
  C61_one_enthalpy
  C41_energy_cea
  C59_cea_refuted
  C56_compressor
  C56_turbine
  C72_derivatives_large
  C72_derivatives_small
  C72_large_increasing
  C72_small_increasing_partial
  C72_core
  C72_core_exit
  C72_core_growth
  C72_opr
  C72_opr_loss
  C72_large_meets
  C72_core_nonvacuous
  C41_mass
  C41_stations
  C41_energy
  C41_shaft
  C41_engine
  C60_fan_out_refuted
  C41_nonvacuous
  C70_engine
  C70_inert
  C70_nonvacuous
  C32_splitter_derivatives
  C32_bleed_derivatives
  C33_derivatives
  C34_gearbox_derivatives
  C34_shaft_derivatives
  C35_derivatives_partial
  C35_TSFC_entries_partial
  C35_TSFC_refuted
  C36_recovery_subsonic
  C36_recovery_schedule_partial
  C36_monotone_refuted
  C36_bound_refuted
  C36_derivatives
  C36_inlet_derivatives
  C39_duct_round_trip
  C39_derivatives
  C37_derivatives
  C38_cooling_flow
  C38_cooling_amount
  C38_cooling_flow_monotone
  C38_energy_partial
  C38_derivatives
  C38_switch_on_is_a_jump_refuted
  C38_row_pressure
  C38_row_pressure_order_refuted
  C66_elements
  C66_normalised
  C66_engine
  C48_turbine_constituents
  C66_constituents
  C66_nonvacuous
  C66_constituents_nonvacuous
  C21_equilibrium
  C21_gibbs_minimum
  C21_unique
  C22_jacobian_partial
  C22_jacobian_at_solution
  C22_jacobian_elsewhere_refuted
  C22_trace_on_partial
  C22_trace_entry_refuted
  C22_linearize_refuted
  C22_wellformed
  C23_response
  C24_ideal_gas
  C24_thermodynamics
  C24_species_functions
  C24_derivatives_partial
  C24_trace_refuted
  C67_mass
  C67_thrust
  C67_shaft
  C67_targets
  C67_part_power
  C67_energy
  C67_nonvacuous
  C47_values
  C47_raises
  C47_derivatives
  C47_stale
  C47_stale_refuted
  C47_residuals
  C47_chem_derivatives
  C47_residuals_refuted
  C47_stale_mask_refuted
  C68_design_is_off_design
  C68_afterburner_condition
  C68_nonvacuous
  C54_duct
  C58_duct_defaults_refuted
  C54_compressor
  C54_turbine
  C58_off_design_inputs
  C76_states
  C76_stations
  C76_isentropic
  C76_loss
  C76_static_pressure
  C76_duct
  C76_compressor
  C76_turbine
  C76_nozzle
  C76_shipped_states
  C76_shipped_elements
  C65_heat_capacity
  C65_gas_ok
  C65_proper
  C61_shipped
  C62_shipped
  C63_shipped
  C62_shipped_across
  C62_shipped_within
  C16_transparent_partial
  C16_same_as_fresh_partial
  C16_breakpoint_partial
  C16_breakpoint_refuted
  C15_consistent
  C25_derivatives
  C27_mach_mode
  C27_area_mode_partial
  C27_area_mode_other_entries
  C27_area_mode_refuted
  C28_mach_mode_refuted
  C48_duct
  C48_compressor
  C48_turbine
  C48_turbine_elements
  C55_complete
  C55_vectors
  C69_energy
  C73_grids
  C73_entries
  C73_station
  C73_combustor
  C73_same_exit
  C73_cea
  C73_exists
  C73_nonvacuous
  C42_static_composition_refuted
  C30_compressor_derivatives
  C30_turbine_derivatives
  C30_map_derivatives
  C71_compressor
  C71_turbine
  C71_burner
  C71_nozzle
  C71_flow_station
  C71_compressor_bleeds
  C71_plot_compressor
  C71_plot_turbine
  C71_plot_offdesign_refuted
  C71_flow_station_totals_refuted
  C71_nonvacuous

== ClassicalDedekindReals.sig_forall_dec, ClassicalDedekindReals.sig_not_dec, FunctionalExtensionality.functional_extensionality_dep
  C56_inlet
  C56_nozzle
  C59_ideal_gas
  C59_full_recovery
  C59_enthalpy_refuted
  C34_shaft_power_balance
  C38_combined_flow
  C48_combustor_elements
  C48_combustor_constituents
  C48_mixer_constituents
  C23_derivatives
  C47_stale_rhs
  C70_humid_start
  C70_humid_flight
  C54_inlet
  C54_splitter
  C54_combustor
  C54_bleed_out
  C54_mixer
  C25_consistent
  C25_subsonic
  C25_inverted
  C26_mach_mode_partial
  C26_area_mode_partial
  C26_energy_mach_mode
  C26_zero_mach_refuted
  C26_zero_area_refuted
  C27_below_threshold_refuted
  C48_inlet
  C48_splitter
  C48_flow_start
  C48_cfd_start
  C48_flight_conditions
  C48_bleed_out
  C48_combustor
  C48_nozzle
  C48_mixer
  C48_mixer_elements
  C69_temperature
  C69_station_hP
  C69_station_SP
  C69_station_Ps
  C42_total_TP
  C42_total_hP
  C42_total_SP
  C42_static_Ps
  C42_static_MN
  C42_static_A
  C42_outputs
  C42_inputs
  C42_wired
  C42_unambiguous
  C42_units
  C71_bleed_out
  C71_mixer
  C71_shaft
  C71_bleed_out_key

== ClassicalDedekindReals.sig_forall_dec, FunctionalExtensionality.functional_extensionality_dep
  C40_table
  C40_pressure_refuted
  C40_positive
  C74_gas_law_partial
  C74_gas_law_refuted
  C74_temperature
  C56_gas_constant
  C56_standard_day
  C72_balance
  C72_small_table
  C72_large_refuted
  C72_small_levels
  C72_large_levels
  C72_small_refuted
  C70_setup_returns
  C70_adders
  C70_setup
  C70_returns
  C46_maps
  C46_thermo_data
  C46_weights_partial
  C46_weights_refuted
  C52_nodes
  C52_physical
  C52_defined
  C52_zero_efficiency
  C52_design_point
  C32_splitter_conserves
  C32_bleed_conserves
  C34_gearbox_power_balance
  C34_gearbox_solve
  C34_gearbox_gains
  C35_performance_values
  C36_inlet_calcs
  C39_pressure_and_heat
  C37_pressures
  C37_thrust
  C37_mux_selects
  C37_mux_derivatives
  C37_mux_writes
  C37_choked_flag_refuted
  C21_guess
  C23_systems
  C67_network
  C70_default_composition
  C53_compressor_design
  C53_compressor_offdesign
  C53_compressor_design_point
  C53_stall_margins
  C57_stall_of_machine_refuted
  C57_flow_margin
  C57_speed_margin
  C53_turbine_design
  C53_turbine_offdesign
  C53_turbine_design_point
  C75_n3_maps
  C75_n3_physical
  C75_n3_design_point
  C75_flow_speed
  C75_speed_determined
  C75_turbine_flow
  C75_flow_rline_partial
  C75_flow_rline_refuted
  C75_rline_not_determined
  C45_unit_comp
  C45_pass_through
  C17_reactants
  C18_reactants
  C17_flows
  C17_flow_names
  C18_flows
  C19_cea_announced
  C19_cea_unknown_reactant
  C19_cea_vector
  C19_index_found
  C19_surplus_reactant_refuted
  C19_default_inflow_refuted
  C18_tabular
  C49_reactant
  C49_flow
  C49_initial_value_refuted
  C20_tabular_flow
  C20_same_iff_dry_partial
  C20_refuted
  C43_element_ports
  C43_cooling_rows_refuted
  C50_element
  C50_network
  C50_tabular
  C13_mass_normalised
  C13_relative_amounts
  C13_scale_invariant
  C13_order_independent
  C14_rejections
  C14_products
  C28_area_mode
  C28_mach_mode_first_only
  C55_reads
  C55_refused
  C69_function
  C69_nodes
  C69_between
  C69_bounds
  C69_linear
  C69_continuous
  C69_temperature_range
  C69_ideal_gas
  C69_extrapolation_refuted
  C69_nonvacuous
  C73_same_air
  C73_elements
  C29_compressor_balance
  C29_bleed_states
  C29_turbine_balance
  C29_unit_efficiency
  C29_pressure
  C31_compressor_round_trip
  C31_turbine_round_trip
  C31_scalars_unique
