-Q theories Verif
theories/M_Syntax.v
theories/M_Certificates.v
theories/M_Verifier.v
theories/S_Verifier.v
theories/L_Holds.v
theories/L_Verifier.v
theories/L_Table.v
theories/P_Verifier.v
theories/S_Certificates.v
theories/P_Certificates.v
theories/S_Dynamics.v
theories/L_Calculus.v
theories/M_BetaSearch.v
theories/P_BetaSearch.v
theories/S_Success.v
theories/L_Success.v
theories/P_Safety.v
theories/L_Topology.v
theories/L_Continuity.v
theories/P_Stability.v
theories/M_Domains.v
theories/S_Domains.v
theories/L_Domains.v
theories/P_Domains.v
theories/S_Sampling.v
theories/L_Sampling.v
theories/P_Sampling.v
theories/P_Examples.v
theories/M_Activations.v
theories/S_Activations.v
theories/L_Activations.v
theories/P_Activations.v
theories/M_Network.v
theories/S_Network.v
theories/L_Network.v
theories/P_Translator.v
theories/P_TranslatorBugs.v
theories/M_Learner.v
theories/S_Learner.v
theories/L_Learner.v
theories/P_LLO.v
theories/M_Cegis.v
theories/S_Cegis.v
theories/P_Cegis.v
theories/M_Fossil.v
theories/S_Fossil.v
theories/L_Smooth.v
theories/L_Fossil.v
theories/P_Fossil.v
theories/M_Double.v
theories/S_Double.v
theories/P_Double.v
theories/P_DoubleExamples.v
theories/L_Demo.v
theories/P_FossilExamples.v
theories/M_Control.v
theories/S_Control.v
theories/P_Control.v
theories/M_Consolidator.v
theories/P_Consolidator.v
theories/M_Supervisor.v
theories/P_Supervisor.v
theories/M_Timer.v
theories/P_Timer.v
theories/M_Recorder.v
theories/P_Recorder.v
theories/M_Learning.v
theories/S_Learning.v
theories/P_Learning.v
theories/P_Training.v
theories/M_Labels.v
theories/S_Labels.v
theories/P_Labels.v
theories/M_Parser.v
theories/S_Parser.v
theories/L_Parser.v
theories/P_Parser.v
theories/M_Variables.v
theories/S_Variables.v
theories/P_Variables.v
theories/M_Verify.v
theories/S_Verify.v
theories/P_Verify.v
theories/M_Gradient.v
theories/P_Gradient.v
theories/M_DomainParser.v
theories/S_DomainParser.v
theories/P_DomainParser.v
theories/M_Main.v
theories/P_Main.v
theories/M_Lexer.v
theories/S_Lexer.v
theories/P_Lexer.v
theories/M_Cli.v
theories/S_Cli.v
theories/P_Cli.v
theories/M_Config.v
theories/S_Config.v
theories/L_Config.v
theories/L_Session.v
theories/L_Regions.v
theories/P_Config.v
theories/P_ConfigDouble.v
theories/P_ConfigDoubleExamples.v
theories/P_ConfigExamples.v
theories/M_ConfigVerify.v
theories/S_ConfigVerify.v
theories/L_ConfigVerify.v
theories/P_ConfigVerify.v
theories/P_ConfigVerifyExamples.v
theories/P_ConfigCandidate.v
theories/P_ConfigCandidateExamples.v
theories/S_Session.v
theories/P_Session.v
theories/P_SessionExamples.v
theories/S_Loops.v
theories/P_Loops.v
theories/M_Dispatch.v
theories/P_Dispatch.v
theories/M_SympyConverter.v
theories/S_SympyConverter.v
theories/P_SympyConverter.v
theories/M_Analyser.v
theories/S_Analyser.v
theories/P_Analyser.v
theories/M_Model.v
theories/M_Benchmarks.v
theories/S_Model.v
theories/P_Model.v
theories/M_Custom.v
theories/S_Custom.v
theories/P_Custom.v
theories/P_CustomExamples.v
theories/M_Linear.v
theories/S_Linear.v
theories/L_Frechet.v
theories/L_Quadratic.v
theories/P_Linear.v
theories/P_LinearExamples.v
theories/L_Eigen.v
theories/P_Eigen.v
theories/P_EigenExamples.v
theories/L_LQR.v
theories/P_LQR.v
theories/P_LQRExamples.v
theories/M_Regulariser.v
theories/S_Regulariser.v
theories/L_Regulariser.v
theories/P_Regulariser.v
theories/M_Experiment.v
theories/S_Experiment.v
theories/M_Scripts.v
theories/L_Boxes.v
theories/L_Annulus.v
theories/L_Experiment.v
theories/P_Experiment.v
theories/P_ExperimentExamples.v
theories/M_Documents.v
theories/S_Documents.v
theories/L_Texts.v
theories/L_Documents.v
theories/P_Documents.v
theories/P_DocumentsMore.v
theories/P_DocumentsExamples.v
theories/P_DocumentsStay.v
theories/S_Settings.v
theories/P_Settings.v
theories/S_Start.v
theories/L_Start.v
theories/P_Start.v
theories/P_StartExamples.v
theories/S_Complete.v
theories/P_Complete.v
theories/P_CompleteExamples.v
theories/S_Progress.v
theories/P_Progress.v
theories/P_ProgressExamples.v
theories/S_Terminates.v
theories/P_Terminates.v
theories/P_TerminatesExamples.v
theories/S_ProgressTwo.v
theories/P_ProgressTwo.v
theories/P_TerminatesTwo.v
theories/P_TerminatesTwoExamples.v
theories/P_TerminatesDocument.v
theories/P_TerminatesDocumentExamples.v
theories/P_TerminatesDocumentTwoExamples.v
theories/P_ConfigMoreExamples.v
theories/P_LoopExamples.v
theories/P_LearningExamples.v
theories/P_TranslatorExamples.v
theories/M_Containment.v
theories/P_Containment.v
