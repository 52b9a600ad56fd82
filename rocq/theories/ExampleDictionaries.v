(** * The dictionaries that are shipped with the library, in tests/ and Examples/, translated from their json files.  Decimal fractions are
    kept exact (rational numbers).  Texts with functions are given some function by the environment. *)
From Coq Require Import String ZArith List Bool QArith Qcanon.
From Verif Require Import Num NumQ Py ModelPulse ModelBases ModelControls ModelState ModelImport ModelJson ModelConfig SpecConfig ExampleControls PropConfig.
Import ListNotations.
Open Scope string_scope.
Open Scope list_scope.
Open Scope Z_scope.

Notation dict := (list (key * value (@num Qcnum))).
Notation frac := (frac (N := Qcnum)).
Definition there : env (N := Qcnum) :=
  {| e_guess := fun _ => Good zero_guess; e_scaling := fun _ => Good unit_scaling; e_exists := fun _ => true; e_load_guess := fun _ _ => Good zero_guess; e_load_scaling := fun _ _ => Good unit_scaling;
     e_cwd := "/home"; e_normpath := fun p => p; e_jax := true; e_elsewhere := fun _ _ => Fails; e_fom_methods := Good tt; e_folder_free := true |}.

(** Examples/settings_AD.json *)
Definition d_settings_AD : dict :=
  ["algorithm_settings" :-> VDict ["algorithm_name" :-> VStr "AD"; "optimization_direction" :-> VStr "maximization";
   "random_number_generator" :-> VDict ["seed_number" :-> VInt 1234]; "stopping_criteria" :-> VDict ["max_eval_total" :-> VInt 100; "ftol" :-> frac 1 1000000;
   "gtol" :-> frac 1 1000000]]; "pulses" :-> VList [VDict ["pulse_name" :-> VStr "Pulse_1"; "upper_limit" :-> frac 100 1; "lower_limit" :-> frac (-100) 1;
   "bins_number" :-> VInt 100; "amplitude_variation" :-> frac 30 1; "time_name" :-> VStr "time_1"; "basis" :-> VDict ["basis_name" :-> VStr "PiecewiseBasis";
   "bins_number" :-> VInt 100]]]; "parameters" :-> VList []; "times" :-> VList [VDict ["time_name" :-> VStr "time_1"; "initial_value" :-> frac 1 1]]].
(** Examples/settings_AD_Fourier.json *)
Definition d_settings_AD_Fourier : dict :=
  ["optimization_client_name" :-> VStr "Optimization_AD_Fourier_IsingModel"; "algorithm_settings" :-> VDict ["algorithm_name" :-> VStr "AD";
   "super_iteration_number" :-> VInt 3; "optimization_direction" :-> VStr "maximization"; "random_number_generator" :-> VDict ["seed_number" :-> VInt 1236];
   "stopping_criteria" :-> VDict ["ftol" :-> frac 1 100000; "gtol" :-> frac 1 100000]]; "pulses" :-> VList [VDict ["pulse_name" :-> VStr "Pulse_1";
   "upper_limit" :-> frac 1000 1; "lower_limit" :-> frac (-1000) 1; "amplitude_variation" :-> frac 30 1; "time_name" :-> VStr "time_1";
   "basis" :-> VDict ["basis_name" :-> VStr "Fourier"; "basis_vector_number" :-> VInt 5;
   "random_super_parameter_distribution" :-> VDict ["distribution_name" :-> VStr "Uniform"; "lower_limit" :-> frac 1 100; "upper_limit" :-> frac 10 1]]]];
   "parameters" :-> VList []; "times" :-> VList [VDict ["time_name" :-> VStr "time_1"; "initial_value" :-> frac 1 1]]].
(** Examples/settings_GRAPE.json *)
Definition d_settings_GRAPE : dict :=
  ["algorithm_settings" :-> VDict ["algorithm_name" :-> VStr "GRAPE"; "optimization_direction" :-> VStr "minimization";
   "stopping_criteria" :-> VDict ["max_eval_total" :-> VInt 200; "ftol" :-> frac 1 1000000; "gtol" :-> frac 1 1000000]];
   "pulses" :-> VList [VDict ["pulse_name" :-> VStr "Pulse_1"; "upper_limit" :-> frac 100 1; "lower_limit" :-> frac (-100) 1; "bins_number" :-> VInt 100;
   "amplitude_variation" :-> frac 30 1; "time_name" :-> VStr "time_1"; "basis" :-> VDict ["basis_name" :-> VStr "PiecewiseBasis"; "bins_number" :-> VInt 100]]];
   "parameters" :-> VList []; "times" :-> VList [VDict ["time_name" :-> VStr "time_1"; "initial_value" :-> frac 1 1]]].
(** Examples/settings_LindbladProblem.json *)
Definition d_settings_LindbladProblem : dict :=
  ["optimization_client_name" :-> VStr "Optimization_LindbladProblem"; "algorithm_settings" :-> VDict ["algorithm_name" :-> VStr "AD";
   "optimization_direction" :-> VStr "maximization"; "random_number_generator" :-> VDict ["seed_number" :-> VInt 1234];
   "stopping_criteria" :-> VDict ["max_eval_total" :-> VInt 100; "ftol" :-> frac 1 10000; "gtol" :-> frac 1 10000]];
   "pulses" :-> VList [VDict ["pulse_name" :-> VStr "Pulse_1"; "upper_limit" :-> frac 100 1; "lower_limit" :-> frac (-100) 1; "bins_number" :-> VInt 100;
   "amplitude_variation" :-> frac 30 1; "time_name" :-> VStr "time_1"; "basis" :-> VDict ["basis_name" :-> VStr "PiecewiseBasis"; "bins_number" :-> VInt 100];
   "scaling_function" :-> VDict ["function_type" :-> VStr "lambda_function"; "lambda_function" :-> VStr "lambda t: 1.0 + 0.0*t"];
   "initial_guess" :-> VDict ["function_type" :-> VStr "lambda_function"; "lambda_function" :-> VStr "lambda t: 0.0 + 0.0*t"]]]; "parameters" :-> VList [];
   "times" :-> VList [VDict ["time_name" :-> VStr "time_1"; "initial_value" :-> frac 1 1]]].
(** Examples/settings_dCRAB.json *)
Definition d_settings_dCRAB : dict :=
  ["optimization_client_name" :-> VStr "Optimization_dCRAB_IsingModel"; "create_logfile" :-> VBool true; "algorithm_settings" :-> VDict ["algorithm_name" :-> VStr "dCRAB";
   "super_iteration_number" :-> VInt 3; "max_eval_total" :-> VInt 3000; "optimization_direction" :-> VStr "minimization";
   "dsm_settings" :-> VDict ["general_settings" :-> VDict ["dsm_algorithm_name" :-> VStr "NelderMead"]; "stopping_criteria" :-> VDict ["xatol" :-> frac 1 10000;
   "fatol" :-> frac 1 1000000; "change_based_stop" :-> VDict ["cbs_funct_evals" :-> VInt 200; "cbs_change" :-> frac 1 100]; "max_eval" :-> VInt 1000]]];
   "pulses" :-> VList [VDict ["pulse_name" :-> VStr "Pulse_1"; "upper_limit" :-> frac 1000 1; "lower_limit" :-> frac (-1000) 1; "time_name" :-> VStr "time_1";
   "amplitude_variation" :-> frac 30 1; "basis" :-> VDict ["basis_name" :-> VStr "Fourier"; "basis_vector_number" :-> VInt 5;
   "random_super_parameter_distribution" :-> VDict ["distribution_name" :-> VStr "Uniform"; "lower_limit" :-> frac 1 100; "upper_limit" :-> frac 10 1]]]];
   "times" :-> VList [VDict ["time_name" :-> VStr "time_1"]]; "parameters" :-> VList []].
(** tests/controls_dictionary.json *)
Definition d_controls_dictionary : dict :=
  ["Comment" :-> VStr "This is test dictionary for the controls Test"; "Disclaimer" :-> VStr "Do not use this json file for optimization";
   "pulses" :-> VList [VDict ["pulse_name" :-> VStr "Pulse111"; "upper_limit" :-> frac 1 1; "lower_limit" :-> frac (-1) 1; "bins_number" :-> VInt 101;
   "time_name" :-> VStr "time111"; "amplitude_variation" :-> frac 3 25; "basis" :-> VDict ["basis_class" :-> VStr "Fourier";
   "basis_module" :-> VStr "quocslib.pulses.basis.Fourier"; "basis_attribute" :-> VNone; "basis_vector_number" :-> VInt 2;
   "random_super_parameter_distribution" :-> VDict ["distribution_class" :-> VStr "Uniform"; "distribution_module" :-> VStr "quocslib.pulses.superparameter.Uniform";
   "distribution_attribute" :-> VNone; "lower_limit" :-> frac 1 10; "upper_limit" :-> frac 5 1]]]];
   "parameters" :-> VList [VDict ["parameter_name" :-> VStr "Parameter111"; "lower_limit" :-> frac (-2) 1; "upper_limit" :-> frac 2 1; "initial_value" :-> frac 1 100;
   "amplitude_variation" :-> frac 1 2]]; "times" :-> VList [VDict ["time_name" :-> VStr "time111"; "initial_value" :-> frac 5 1]]].
(** tests/dCRAB_Fourier_NM_OneQubit.json *)
Definition d_dCRAB_Fourier_NM_OneQubit : dict :=
  ["Comment" :-> VStr "This is a test dictionary for the controls: dCRAB, Fourier, Uniform Distribution.";
   "Disclaimer" :-> VStr "Do not use this json file for optimization"; "optimization_client_name" :-> VStr "Optimization_dCRAB_Fourier_NM_OneQubit";
   "algorithm_settings" :-> VDict ["algorithm_name" :-> VStr "dCRAB"; "super_iteration_number" :-> VInt 5; "max_eval_total" :-> VInt 5000;
   "dsm_settings" :-> VDict ["general_settings" :-> VDict ["dsm_algorithm_name" :-> VStr "NelderMead"; "is_adaptive" :-> VBool true];
   "stopping_criteria" :-> VDict ["xatol" :-> frac 1 100; "fatol" :-> frac 1 100]]]; "pulses" :-> VList [VDict ["pulse_name" :-> VStr "Pulse_1";
   "upper_limit" :-> frac 15 1; "lower_limit" :-> frac (-15) 1; "bins_number" :-> VInt 101; "time_name" :-> VStr "time_1"; "amplitude_variation" :-> frac 3 10;
   "basis" :-> VDict ["basis_name" :-> VStr "Fourier"; "basis_vector_number" :-> VInt 2;
   "random_super_parameter_distribution" :-> VDict ["distribution_name" :-> VStr "Uniform"; "lower_limit" :-> frac 1 10; "upper_limit" :-> frac 5 1]];
   "initial_guess" :-> VDict ["function_type" :-> VStr "lambda_function"; "lambda_function" :-> VStr "lambda t: np.pi/3.0 + 0.0*t"]]]; "parameters" :-> VList [];
   "times" :-> VList [VDict ["time_name" :-> VStr "time_1"; "initial_value" :-> frac 3 1]]].
(** tests/dCRAB_Fourier_NM_OneQubit_Noisy.json *)
Definition d_dCRAB_Fourier_NM_OneQubit_Noisy : dict :=
  ["Comment" :-> VStr "This is a test dictionary for the controls: dCRAB, Fourier, Uniform Distribution.";
   "Disclaimer" :-> VStr "Do not use this json file for optimization"; "optimization_client_name" :-> VStr "Optimization_dCRAB_Fourier_NM_OneQubit_Noisy";
   "algorithm_settings" :-> VDict ["algorithm_name" :-> VStr "dCRAB"; "super_iteration_number" :-> VInt 5; "max_eval_total" :-> VInt 5000;
   "compensate_drift" :-> VDict ["compensate_after_SI" :-> VBool true]; "random_number_generator" :-> VDict ["seed_number" :-> VInt 420];
   "re_evaluation" :-> VDict ["re_evaluation_steps" :-> VList [frac 3 10; frac 1 2; frac 51 100]];
   "dsm_settings" :-> VDict ["general_settings" :-> VDict ["dsm_algorithm_name" :-> VStr "NelderMead"; "is_adaptive" :-> VBool true];
   "stopping_criteria" :-> VDict ["xatol" :-> frac 1 100; "fatol" :-> frac 1 100]]]; "pulses" :-> VList [VDict ["pulse_name" :-> VStr "Pulse_1";
   "upper_limit" :-> frac 15 1; "lower_limit" :-> frac (-15) 1; "bins_number" :-> VInt 101; "time_name" :-> VStr "time_1"; "amplitude_variation" :-> frac 3 10;
   "basis" :-> VDict ["basis_class" :-> VStr "Fourier"; "basis_module" :-> VStr "quocslib.pulses.basis.Fourier"; "basis_attribute" :-> VNone;
   "basis_vector_number" :-> VInt 2; "random_super_parameter_distribution" :-> VDict ["distribution_class" :-> VStr "Uniform";
   "distribution_module" :-> VStr "quocslib.pulses.superparameter.Uniform"; "distribution_attribute" :-> VNone; "lower_limit" :-> frac 1 10; "upper_limit" :-> frac 5 1]];
   "initial_guess" :-> VDict ["function_type" :-> VStr "lambda_function"; "lambda_function" :-> VStr "lambda t: np.pi/3.0 + 0.0*t"]]]; "parameters" :-> VList [];
   "times" :-> VList [VDict ["time_name" :-> VStr "time_1"; "initial_value" :-> frac 3 1]]].
(** tests/dCRAB_Fourier_NM_OneQubit_json_dump.json *)
Definition d_dCRAB_Fourier_NM_OneQubit_json_dump : dict :=
  ["Comment" :-> VStr "This is a test dictionary for the controls: dCRAB, Fourier, Uniform Distribution.";
   "Disclaimer" :-> VStr "Do not use this json file for optimization"; "optimization_client_name" :-> VStr "Optimization_dCRAB_Fourier_NM_OneQubit_json_dump";
   "dump_format" :-> VStr "json"; "algorithm_settings" :-> VDict ["algorithm_name" :-> VStr "dCRAB"; "super_iteration_number" :-> VInt 5; "max_eval_total" :-> VInt 5000;
   "dsm_settings" :-> VDict ["general_settings" :-> VDict ["dsm_algorithm_name" :-> VStr "NelderMead"; "is_adaptive" :-> VBool true];
   "stopping_criteria" :-> VDict ["xatol" :-> frac 1 100; "fatol" :-> frac 1 100]]]; "pulses" :-> VList [VDict ["pulse_name" :-> VStr "Pulse_1";
   "upper_limit" :-> frac 15 1; "lower_limit" :-> frac (-15) 1; "bins_number" :-> VInt 101; "time_name" :-> VStr "time_1"; "amplitude_variation" :-> frac 3 10;
   "basis" :-> VDict ["basis_name" :-> VStr "Fourier"; "basis_vector_number" :-> VInt 2;
   "random_super_parameter_distribution" :-> VDict ["distribution_name" :-> VStr "Uniform"; "lower_limit" :-> frac 1 10; "upper_limit" :-> frac 5 1]];
   "initial_guess" :-> VDict ["function_type" :-> VStr "lambda_function"; "lambda_function" :-> VStr "lambda t: np.pi/3.0 + 0.0*t"]]]; "parameters" :-> VList [];
   "times" :-> VList [VDict ["time_name" :-> VStr "time_1"; "initial_value" :-> frac 3 1]]].
(** tests/mixed_dCRAB_Fourier_NM_OneQubit.json *)
Definition d_mixed_dCRAB_Fourier_NM_OneQubit : dict :=
  ["Comment" :-> VStr "This is a test dictionary for the controls: dCRAB, Fourier, Uniform Distribution.";
   "Disclaimer" :-> VStr "Do not use this json file for optimization"; "optimization_client_name" :-> VStr "Optimization_mixed_dCRAB_Fourier_NM_OneQubit_Noisy";
   "algorithm_settings" :-> VDict ["algorithm_name" :-> VStr "dCRAB"; "super_iteration_number" :-> VInt 2; "max_eval_total" :-> VInt 500;
   "compensate_drift" :-> VDict ["compensate_after_SI" :-> VBool true]; "random_number_generator" :-> VDict ["seed_number" :-> VInt 420];
   "re_evaluation" :-> VDict ["re_evaluation_steps" :-> VList [frac 3 10; frac 1 2; frac 51 100]];
   "dsm_settings" :-> VDict ["general_settings" :-> VDict ["dsm_algorithm_name" :-> VStr "NelderMead"; "is_adaptive" :-> VBool true];
   "stopping_criteria" :-> VDict ["xatol" :-> frac 1 1000; "fatol" :-> frac 1 100000]]]; "pulses" :-> VList [VDict ["pulse_name" :-> VStr "Pulse_1";
   "upper_limit" :-> frac 15 1; "lower_limit" :-> frac (-15) 1; "bins_number" :-> VInt 101; "time_name" :-> VStr "time_1"; "amplitude_variation" :-> frac 3 10;
   "basis" :-> VDict ["basis_class" :-> VStr "Fourier"; "basis_module" :-> VStr "quocslib.pulses.basis.Fourier"; "basis_attribute" :-> VNone;
   "basis_vector_number" :-> VInt 2; "random_super_parameter_distribution" :-> VDict ["distribution_class" :-> VStr "Uniform";
   "distribution_module" :-> VStr "quocslib.pulses.superparameter.Uniform"; "distribution_attribute" :-> VNone; "lower_limit" :-> frac 1 10; "upper_limit" :-> frac 5 1]];
   "initial_guess" :-> VDict ["function_type" :-> VStr "lambda_function"; "lambda_function" :-> VStr "lambda t: np.pi/3.0 + 0.0*t"]]];
   "parameters" :-> VList [VDict ["parameter_name" :-> VStr "delta1"; "lower_limit" :-> frac (-2) 1; "upper_limit" :-> frac 2 1; "initial_value" :-> frac 1 100;
   "amplitude_variation" :-> frac 1 2]]; "times" :-> VList [VDict ["time_name" :-> VStr "time_1"; "initial_value" :-> frac 3 1]]].
(** tests/one_pulse_two_times.json *)
Definition d_one_pulse_two_times : dict :=
  ["Comment" :-> VStr "This is a test dictionary for the controls: dCRAB, Fourier, Uniform Distribution.";
   "Disclaimer" :-> VStr "Do not use this json file for optimization"; "optimization_client_name" :-> VStr "Test_one_pulse_two_times";
   "algorithm_settings" :-> VDict ["algorithm_name" :-> VStr "dCRAB"; "super_iteration_number" :-> VInt 2; "max_eval_total" :-> VInt 100;
   "dsm_settings" :-> VDict ["general_settings" :-> VDict ["dsm_algorithm_name" :-> VStr "NelderMead"; "is_adaptive" :-> VBool true];
   "stopping_criteria" :-> VDict ["xatol" :-> frac 1 100; "fatol" :-> frac 1 100]]]; "pulses" :-> VList [VDict ["pulse_name" :-> VStr "My_Pulse_1";
   "upper_limit" :-> frac 15 1; "lower_limit" :-> frac (-15) 1; "bins_number" :-> VInt 101; "time_name" :-> VStr "My_Time_1"; "amplitude_variation" :-> frac 3 10;
   "basis" :-> VDict ["basis_name" :-> VStr "Fourier"; "basis_vector_number" :-> VInt 2;
   "random_super_parameter_distribution" :-> VDict ["distribution_name" :-> VStr "Uniform"; "lower_limit" :-> frac 1 10; "upper_limit" :-> frac 5 1]];
   "initial_guess" :-> VDict ["function_type" :-> VStr "lambda_function"; "lambda_function" :-> VStr "lambda t: np.pi/3.0 + 0.0*t"]]];
   "parameters" :-> VList [VDict ["parameter_name" :-> VStr "My_Param_1"; "lower_limit" :-> frac (-2) 1; "upper_limit" :-> frac 2 1; "initial_value" :-> frac 1 100;
   "amplitude_variation" :-> frac 1 2]; VDict ["parameter_name" :-> VStr "My_Param_2"; "lower_limit" :-> frac (-2) 1; "upper_limit" :-> frac 2 1;
   "initial_value" :-> frac 1 100; "amplitude_variation" :-> frac 1 2]]; "times" :-> VList [VDict ["time_name" :-> VStr "My_Time_1"; "initial_value" :-> frac 3 1];
   VDict ["time_name" :-> VStr "My_Time_2"; "initial_value" :-> frac 3 1]]].
(** tests/opt_Rosen_NM.json *)
Definition d_opt_Rosen_NM : dict :=
  ["optimization_client_name" :-> VStr "Pure_Parameter_Opt_with_Rosenbrock_NM"; "algorithm_settings" :-> VDict ["algorithm_name" :-> VStr "DirectSearch";
   "dsm_settings" :-> VDict ["general_settings" :-> VDict ["dsm_algorithm_name" :-> VStr "NelderMead"]; "stopping_criteria" :-> VDict ["xatol" :-> frac 1 100000000000000;
   "fatol" :-> frac 1 10000]]]; "pulses" :-> VList []; "times" :-> VList []; "parameters" :-> VList [VDict ["parameter_name" :-> VStr "Parameter1";
   "lower_limit" :-> frac (-2) 1; "upper_limit" :-> frac 2 1; "initial_value" :-> frac 2 5; "amplitude_variation" :-> frac 1 2];
   VDict ["parameter_name" :-> VStr "Parameter2"; "lower_limit" :-> frac (-2) 1; "upper_limit" :-> frac 2 1; "initial_value" :-> frac 2 5;
   "amplitude_variation" :-> frac 1 2]]].
(** tests/two_pulses_one_time.json *)
Definition d_two_pulses_one_time : dict :=
  ["Comment" :-> VStr "This is a test dictionary for the controls: dCRAB, Fourier, Uniform Distribution.";
   "Disclaimer" :-> VStr "Do not use this json file for optimization"; "optimization_client_name" :-> VStr "Test_two_pulses_one_time";
   "algorithm_settings" :-> VDict ["algorithm_name" :-> VStr "dCRAB"; "super_iteration_number" :-> VInt 2; "max_eval_total" :-> VInt 100;
   "dsm_settings" :-> VDict ["general_settings" :-> VDict ["dsm_algorithm_name" :-> VStr "NelderMead"; "is_adaptive" :-> VBool true];
   "stopping_criteria" :-> VDict ["xatol" :-> frac 1 100; "fatol" :-> frac 1 100]]]; "pulses" :-> VList [VDict ["pulse_name" :-> VStr "My_Pulse_1";
   "upper_limit" :-> frac 15 1; "lower_limit" :-> frac (-15) 1; "bins_number" :-> VInt 101; "time_name" :-> VStr "My_Time_1"; "amplitude_variation" :-> frac 3 10;
   "basis" :-> VDict ["basis_name" :-> VStr "Fourier"; "basis_vector_number" :-> VInt 2;
   "random_super_parameter_distribution" :-> VDict ["distribution_name" :-> VStr "Uniform"; "lower_limit" :-> frac 1 10; "upper_limit" :-> frac 5 1]];
   "initial_guess" :-> VDict ["function_type" :-> VStr "lambda_function"; "lambda_function" :-> VStr "lambda t: np.pi/3.0 + 0.0*t"]];
   VDict ["pulse_name" :-> VStr "My_Pulse_2"; "upper_limit" :-> frac 15 1; "lower_limit" :-> frac (-15) 1; "bins_number" :-> VInt 101; "time_name" :-> VStr "My_Time_1";
   "amplitude_variation" :-> frac 3 10; "basis" :-> VDict ["basis_name" :-> VStr "Fourier"; "basis_vector_number" :-> VInt 2;
   "random_super_parameter_distribution" :-> VDict ["distribution_name" :-> VStr "Uniform"; "lower_limit" :-> frac 1 10; "upper_limit" :-> frac 5 1]];
   "initial_guess" :-> VDict ["function_type" :-> VStr "lambda_function"; "lambda_function" :-> VStr "lambda t: np.pi/3.0 + 0.0*t"]]];
   "parameters" :-> VList [VDict ["parameter_name" :-> VStr "My_Param_1"; "lower_limit" :-> frac (-2) 1; "upper_limit" :-> frac 2 1; "initial_value" :-> frac 1 100;
   "amplitude_variation" :-> frac 1 2]; VDict ["parameter_name" :-> VStr "My_Param_2"; "lower_limit" :-> frac (-2) 1; "upper_limit" :-> frac 2 1;
   "initial_value" :-> frac 1 100; "amplitude_variation" :-> frac 1 2]]; "times" :-> VList [VDict ["time_name" :-> VStr "My_Time_1"; "initial_value" :-> frac 3 1]]].
(** tests/two_pulses_two_times.json *)
Definition d_two_pulses_two_times : dict :=
  ["Comment" :-> VStr "This is a test dictionary for the controls: dCRAB, Fourier, Uniform Distribution.";
   "Disclaimer" :-> VStr "Do not use this json file for optimization"; "optimization_client_name" :-> VStr "Test_two_pulses_two_times";
   "algorithm_settings" :-> VDict ["algorithm_name" :-> VStr "dCRAB"; "super_iteration_number" :-> VInt 2; "max_eval_total" :-> VInt 100;
   "dsm_settings" :-> VDict ["general_settings" :-> VDict ["dsm_algorithm_name" :-> VStr "NelderMead"; "is_adaptive" :-> VBool true];
   "stopping_criteria" :-> VDict ["xatol" :-> frac 1 100; "fatol" :-> frac 1 100]]]; "pulses" :-> VList [VDict ["pulse_name" :-> VStr "My_Pulse_1";
   "upper_limit" :-> frac 15 1; "lower_limit" :-> frac (-15) 1; "bins_number" :-> VInt 101; "time_name" :-> VStr "My_Time_1"; "amplitude_variation" :-> frac 3 10;
   "basis" :-> VDict ["basis_name" :-> VStr "Fourier"; "basis_vector_number" :-> VInt 2;
   "random_super_parameter_distribution" :-> VDict ["distribution_name" :-> VStr "Uniform"; "lower_limit" :-> frac 1 10; "upper_limit" :-> frac 5 1]];
   "initial_guess" :-> VDict ["function_type" :-> VStr "lambda_function"; "lambda_function" :-> VStr "lambda t: np.pi/3.0 + 0.0*t"]];
   VDict ["pulse_name" :-> VStr "My_Pulse_2"; "upper_limit" :-> frac 15 1; "lower_limit" :-> frac (-15) 1; "bins_number" :-> VInt 101; "time_name" :-> VStr "My_Time_2";
   "amplitude_variation" :-> frac 3 10; "basis" :-> VDict ["basis_name" :-> VStr "Fourier"; "basis_vector_number" :-> VInt 2;
   "random_super_parameter_distribution" :-> VDict ["distribution_name" :-> VStr "Uniform"; "lower_limit" :-> frac 1 10; "upper_limit" :-> frac 5 1]];
   "initial_guess" :-> VDict ["function_type" :-> VStr "lambda_function"; "lambda_function" :-> VStr "lambda t: np.pi/3.0 + 0.0*t"]]];
   "parameters" :-> VList [VDict ["parameter_name" :-> VStr "My_Param_1"; "lower_limit" :-> frac (-2) 1; "upper_limit" :-> frac 2 1; "initial_value" :-> frac 1 100;
   "amplitude_variation" :-> frac 1 2]; VDict ["parameter_name" :-> VStr "My_Param_2"; "lower_limit" :-> frac (-2) 1; "upper_limit" :-> frac 2 1;
   "initial_value" :-> frac 1 100; "amplitude_variation" :-> frac 1 2]]; "times" :-> VList [VDict ["time_name" :-> VStr "My_Time_1"; "initial_value" :-> frac 3 1];
   VDict ["time_name" :-> VStr "My_Time_2"; "initial_value" :-> frac 5 1]]].

Definition constructs (d : dict) : bool := match construct ex_funs there d with (true, Good su) => true | _ => false end.
(** all can be constructed but the one for the test of the controls, which has no algorithm and says so *)
Example shipped_dictionaries : forallb constructs
  [d_settings_AD; d_settings_AD_Fourier; d_settings_GRAPE; d_settings_LindbladProblem; d_settings_dCRAB; d_dCRAB_Fourier_NM_OneQubit; d_dCRAB_Fourier_NM_OneQubit_Noisy; d_dCRAB_Fourier_NM_OneQubit_json_dump; d_mixed_dCRAB_Fourier_NM_OneQubit; d_one_pulse_two_times; d_opt_Rosen_NM; d_two_pulses_one_time; d_two_pulses_two_times] = true /\
  construct ex_funs there d_controls_dictionary = (false, Raises KeyError).
Proof. split; vm_compute; reflexivity. Qed.
