-Q theories Verif
theories/QcTac.v
theories/Base.v
theories/BaseLemmas.v
theories/Time_Model.v
theories/Time_Spec.v
theories/Time_Proofs.v
theories/Time_Proofs2.v
theories/Time_Proofs3.v
theories/Time_Props.v
theories/Expr_Model.v
theories/Expr_Spec.v
theories/Expr_Proofs.v
theories/Expr_Proofs2.v
theories/Expr_Props.v
theories/Vars_Model.v
theories/Vars_Spec.v
theories/Vars_Proofs.v
theories/Vars_Proofs2.v
theories/Vars_Proofs3.v
theories/Vars_Props.v
theories/Num.v
theories/Units_Model.v
theories/Units_Spec.v
theories/Units_Proofs.v
theories/Units_Props.v
theories/Rates_Model.v
theories/Rates_Spec.v
theories/Rates_Proofs.v
theories/Rates_Proofs2.v
theories/Rates_Proofs3.v
theories/Rates_Proofs4.v
theories/Rates_Proofs5.v
theories/Rates_Proofs6.v
theories/Rates_Props.v
theories/Input_Model.v
theories/Input_Spec.v
theories/Input_Proofs.v
theories/Input_Proofs2.v
theories/Input_Props.v
theories/Interp_Model.v
theories/Interp_Spec.v
theories/Interp_Proofs.v
theories/Interp_Props.v
theories/Energy_Model.v
theories/Energy_Proofs.v
theories/Energy_Proofs2.v
theories/Energy_Proofs3.v
theories/Energy_Props.v
theories/System_Model.v
theories/System_Spec.v
theories/System_Proofs.v
theories/System_Proofs2.v
theories/System_Proofs3.v
theories/System_Proofs4.v
theories/System_Props.v
theories/Search_Model.v
theories/Search_Spec.v
theories/Search_Proofs.v
theories/Search_Proofs2.v
theories/Search_Props.v
theories/Graph_Model.v
theories/Graph_Spec.v
theories/Graph_Proofs.v
theories/Graph_Proofs2.v
theories/Graph_Proofs3.v
theories/Graph_Props.v
theories/Stream_Model.v
theories/Stream_Spec.v
theories/Stream_Proofs.v
theories/Stream_Props.v
theories/Distribution_Model.v
theories/Distribution_Spec.v
theories/Distribution_Proofs.v
theories/Distribution_Proofs2.v
theories/Distribution_Props.v
theories/Cache_Model.v
theories/Cache_Spec.v
theories/Cache_Proofs.v
theories/Cache_Proofs2.v
theories/Cache_Props.v
theories/Flash_Model.v
theories/Flash_Spec.v
theories/Flash_Proofs.v
theories/Flash_Proofs2.v
theories/Flash_Props.v
theories/Process_Model.v
theories/Process_Spec.v
theories/Process_Proofs.v
theories/Process_Proofs2.v
theories/Process_Proofs3.v
theories/Process_Props.v
theories/Solver_Model.v
theories/Solver_Spec.v
theories/Solver_Proofs.v
theories/Solver_Proofs2.v
theories/Solver_Proofs3.v
theories/Solver_Proofs4.v
theories/Solver_Proofs5.v
theories/Solver_Proofs6.v
theories/Solver_Proofs7.v
theories/Solver_Props.v
theories/Chart_Model.v
theories/Chart_Spec.v
theories/Chart_Proofs.v
theories/Chart_Proofs2.v
theories/Pump_Model.v
theories/Pump_Spec.v
theories/Pump_Proofs.v
theories/Pump_Proofs2.v
theories/Pump_Proofs3.v
theories/Pump_Props.v
theories/Numbers_Model.v
theories/Numbers_Spec.v
theories/Numbers_Proofs.v
theories/Numbers_Proofs2.v
theories/Numbers_Props.v
theories/Simple_Model.v
theories/Simple_Spec.v
theories/Simple_Proofs.v
theories/Simple_Proofs2.v
theories/Simple_Proofs3.v
theories/Simple_Proofs4.v
theories/Simple_Proofs5.v
theories/Simple_Proofs6.v
theories/Simple_Props.v
theories/Export_Model.v
theories/Export_Spec.v
theories/Export_Proofs.v
theories/Export_Proofs2.v
theories/Export_Proofs3.v
theories/Export_Proofs4.v
theories/Export_Proofs5.v
theories/Export_Props.v
theories/Attributes_Model.v
theories/Attributes_Spec.v
theories/Attributes_Proofs.v
theories/Attributes_Proofs2.v
theories/Attributes_Proofs3.v
theories/Attributes_Proofs4.v
theories/Attributes_Proofs5.v
theories/Attributes_Proofs6.v
theories/Attributes_Proofs7.v
theories/Attributes_Proofs8.v
theories/Attributes_Props.v
theories/Compressor_Model.v
theories/Compressor_Spec.v
theories/Compressor_Proofs.v
theories/Compressor_Proofs2.v
theories/Compressor_Proofs3.v
theories/Compressor_Proofs4.v
theories/Compressor_Proofs5.v
theories/Compressor_Proofs6.v
theories/Compressor_Proofs7.v
theories/Compressor_Proofs8.v
theories/Compressor_Proofs9.v
theories/Compressor_Props.v
theories/Generic_Model.v
theories/Generic_Spec.v
theories/Generic_Proofs.v
theories/Generic_Proofs2.v
theories/Generic_Proofs3.v
theories/Generic_Proofs4.v
theories/Generic_Proofs5.v
theories/Generic_Props.v
theories/Totals_Model.v
theories/Totals_Spec.v
theories/Totals_Proofs.v
theories/Totals_Proofs2.v
theories/Totals_Proofs3.v
theories/Totals_Proofs4.v
theories/Totals_Proofs5.v
theories/Totals_Proofs6.v
theories/Totals_Proofs7.v
theories/Totals_Proofs8.v
theories/Totals_Props.v
theories/Train_Model.v
theories/Train_Spec.v
theories/Train_Spec2.v
theories/Train_Proofs.v
theories/Train_Proofs2.v
theories/Train_Proofs3.v
theories/Train_Proofs4.v
theories/Train_Proofs5.v
theories/Train_Proofs6.v
theories/Train_Proofs7.v
theories/Train_Proofs8.v
theories/Train_Proofs9.v
theories/Train_Proofs10.v
theories/Train_Proofs11.v
theories/Train_Proofs12.v
theories/Train_Proofs13.v
theories/Train_Proofs14.v
theories/Train_Props.v
theories/Sampled_Model.v
theories/Sampled_Spec.v
theories/Sampled_Proofs.v
theories/Sampled_Proofs2.v
theories/Sampled_Proofs3.v
theories/Sampled_Proofs4.v
theories/Sampled_Proofs5.v
theories/Sampled_Proofs6.v
theories/Sampled_Proofs7.v
theories/Sampled_Proofs8.v
theories/Sampled_Proofs9.v
theories/Sampled_Props.v
theories/Sections_Model.v
theories/Sections_Spec.v
theories/Sections_Proofs.v
theories/Sections_Proofs2.v
theories/Sections_Proofs3.v
theories/Sections_Proofs4.v
theories/Sections_Proofs5.v
theories/Sections_Proofs6.v
theories/Sections_Props.v
theories/Emitters_Model.v
theories/Emitters_Spec.v
theories/Emitters_Proofs.v
theories/Emitters_Proofs2.v
theories/Emitters_Proofs3.v
theories/Emitters_Proofs4.v
theories/Emitters_Proofs5.v
theories/Emitters_Proofs6.v
theories/Emitters_Props.v
theories/Consumer_Model.v
theories/Consumer_Spec.v
theories/Consumer_Proofs.v
theories/Consumer_Proofs2.v
theories/Consumer_Proofs3.v
theories/Consumer_Proofs4.v
theories/Consumer_Proofs5.v
theories/Consumer_Proofs6.v
theories/Consumer_Proofs7.v
theories/Consumer_Proofs8.v
theories/Consumer_Proofs9.v
theories/Consumer_Proofs10.v
theories/Consumer_Props.v
theories/Lexer_Model.v
theories/Lexer_Spec.v
theories/Lexer_Proofs.v
theories/Lexer_Proofs2.v
theories/Lexer_Proofs3.v
theories/Lexer_Proofs4.v
theories/Lexer_Proofs5.v
theories/Lexer_Proofs6.v
theories/Lexer_Props.v
theories/Equipment_Model.v
theories/Equipment_Spec.v
theories/Equipment_Proofs.v
theories/Equipment_Proofs2.v
theories/Equipment_Proofs3.v
theories/Equipment_Proofs4.v
theories/Equipment_Proofs5.v
theories/Equipment_Props.v
theories/Systems_Model.v
theories/Systems_Spec.v
theories/Systems_Proofs.v
theories/Systems_Proofs2.v
theories/Systems_Proofs3.v
theories/Systems_Proofs4.v
theories/Systems_Proofs5.v
theories/Systems_Proofs6.v
theories/Systems_Proofs7.v
theories/Systems_Proofs8.v
theories/Systems_Proofs9.v
theories/Component_Model.v
theories/Component_Spec.v
theories/Component_Proofs.v
theories/Component_Proofs2.v
theories/Systems_Props.v
theories/Asset_Model.v
theories/Asset_Spec.v
theories/Asset_Proofs.v
theories/Asset_Proofs2.v
theories/Asset_Proofs3.v
theories/Asset_Proofs4.v
theories/Asset_Proofs5.v
theories/Asset_Proofs6.v
theories/Asset_Proofs7.v
theories/Asset_Props.v
theories/Asset_Proofs8.v
theories/Report_Spec.v
theories/Asset_Proofs9.v
theories/Asset_Proofs10.v
theories/Asset_Proofs11.v
theories/Report_Props.v
theories/Lifecycle_Model.v
theories/Lifecycle_Spec.v
theories/Lifecycle_Proofs.v
theories/Lifecycle_Proofs2.v
theories/Lifecycle_Proofs3.v
theories/Lifecycle_Props.v
theories/Machines_Model.v
theories/Machines_Spec.v
theories/Machines_Proofs.v
theories/Machines_Props.v
theories/Whole_Model.v
theories/Whole_Proofs.v
theories/Whole_Props.v
theories/Simplified_Model.v
theories/Simplified_Spec.v
theories/Simplified_Proofs.v
theories/Simplified_Proofs2.v
theories/Simplified_Proofs3.v
theories/Simplified_Proofs4.v
theories/Simplified_Props.v
theories/Several_Spec.v
theories/Several_Proofs.v
theories/Several_Proofs2.v
theories/Several_Proofs3.v
theories/Several_Proofs4.v
theories/Several_Props.v
theories/Names_Model.v
theories/Names_Spec.v
theories/Names_Proofs.v
theories/Names_Proofs2.v
theories/Names_Proofs3.v
theories/Names_Proofs4.v
theories/Names_Proofs5.v
theories/Names_Props.v
theories/Duty_Model.v
theories/Duty_Spec.v
theories/Duty_Proofs.v
theories/Duty_Proofs2.v
theories/Duty_Proofs3.v
theories/Duty_Props.v
theories/Simulations_Model.v
theories/Simulations_Spec.v
theories/Simulations_Proofs.v
theories/Simulations_Proofs2.v
theories/Simulations_Proofs3.v
theories/Simulations_Proofs4.v
theories/Simulations_Proofs5.v
theories/Simulations_Props.v
theories/Files_Model.v
theories/Files_Spec.v
theories/Files_Proofs.v
theories/Files_Proofs2.v
theories/Files_Proofs3.v
theories/Files_Proofs4.v
theories/Files_Props.v
theories/Stages_Model.v
theories/Stages_Spec.v
theories/Stages_Proofs.v
theories/Stages_Props.v
theories/Archive_Model.v
theories/Archive_Spec.v
theories/Archive_Proofs.v
theories/Archive_Proofs2.v
theories/Archive_Proofs3.v
theories/Archive_Props.v
theories/Flow_Model.v
theories/Flow_Spec.v
theories/Flow_Proofs.v
theories/Flow_Props.v
theories/Csv_Model.v
theories/Csv_Spec.v
theories/Csv_Proofs.v
theories/Csv_Proofs2.v
theories/Csv_Props.v
theories/Document_Model.v
theories/Document_Spec.v
theories/Document_Proofs.v
theories/Document_Proofs2.v
theories/Document_Proofs3.v
theories/Document_Props.v
theories/Reads_Model.v
theories/Reads_Spec.v
theories/Reads_Proofs.v
theories/Reads_Props.v
theories/Outputs_Model.v
theories/Outputs_Spec.v
theories/Outputs_Proofs.v
theories/Outputs_Proofs2.v
theories/Outputs_Props.v
theories/Shown_Model.v
theories/Shown_Spec.v
theories/Shown_Proofs.v
theories/Shown_Props.v
theories/Definitions_Model.v
theories/Definitions_Spec.v
theories/Definitions_Proofs.v
theories/Definitions_Props.v
theories/Version_Model.v
theories/Version_Spec.v
theories/Version_Proofs.v
theories/Version_Props.v
theories/Extract_Model.v
theories/Extract_Spec.v
theories/Extract_Proofs.v
theories/Extract_Props.v
theories/Sources_Model.v
theories/Sources_Spec.v
theories/Sources_Proofs.v
theories/Sources_Props.v
theories/Shore_Model.v
theories/Shore_Spec.v
theories/Shore_Proofs.v
theories/Shore_Props.v
theories/Gateway_Model.v
theories/Gateway_Spec.v
theories/Gateway_Proofs.v
theories/Gateway_Props.v
theories/Refcheck_Model.v
theories/Refcheck_Spec.v
theories/Refcheck_Proofs.v
theories/Refcheck_Props.v
theories/Subtract_Model.v
theories/Subtract_Spec.v
theories/Subtract_Proofs.v
theories/Subtract_Props.v
theories/Modeltype_Model.v
theories/Modeltype_Spec.v
theories/Modeltype_Proofs.v
theories/Modeltype_Props.v
theories/Location_Model.v
theories/Location_Spec.v
theories/Location_Proofs.v
theories/Location_Props.v
theories/Convert_Model.v
theories/Convert_Spec.v
theories/Convert_Proofs.v
theories/Convert_Props.v
