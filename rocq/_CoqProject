-Q theories Verif
theories/Base.v
theories/Num.v
theories/Mat.v
theories/Model_Node.v
theories/Proof_Node.v
theories/Model_Bits.v
theories/Proof_Bits.v
theories/Proof_Node2.v
theories/Props_Highscore.v
theories/Proof_Models.v
theories/Props_Models.v
theories/Model_Search.v
theories/Proof_Search.v
theories/Proof_Search2.v
theories/Proof_Search3.v
theories/Proof_Search4.v
theories/Proof_Search5.v
theories/Props_Search.v
theories/Model_Util.v
theories/Proof_Util.v
theories/Proof_Product.v
theories/Proof_Rearrange.v
theories/RSum.v
theories/Proof_XR.v
theories/Proof_Util2.v
theories/Props_Util.v
theories/Model_Norm.v
theories/Stats.v
theories/Proof_Norm.v
theories/Proof_Norm2.v
theories/Proof_Kappa.v
theories/Props_Norm.v
theories/Model_Fit.v
theories/Spec_Fit.v
theories/Proof_Fit.v
theories/Proof_Fit2.v
theories/Proof_Fit3.v
theories/Props_Fit.v
theories/Props_EndToEnd.v
theories/Model_Cov.v
theories/Proof_Cov.v
theories/Props_Cov.v
theories/Model_SA.v
theories/Proof_SA.v
theories/Proof_SA2.v
theories/Proof_SA3.v
theories/Props_SA.v
theories/Model_CSV.v
theories/Proof_CSV.v
theories/Proof_CSV2.v
theories/Proof_CSVText.v
theories/Props_CSV.v
theories/Model_Crd.v
theories/Proof_Crd.v
theories/Proof_Crd2.v
theories/Proof_Crd3.v
theories/Props_Crd.v
theories/Model_CrdPath.v
theories/Proof_CrdPath.v
theories/Props_CrdPath.v
theories/Model_Lars.v
theories/Proof_Lars.v
theories/Spec_Lars.v
theories/Proof_Homotopy.v
theories/Proof_Lars2.v
theories/Proof_Lars3.v
theories/Eval.v
theories/Props_Lars.v
theories/Model_Lazy.v
theories/Proof_Lazy.v
theories/Props_Lazy.v
theories/Model_Path.v
theories/Spec_Path.v
theories/Proof_Path.v
theories/Proof_Entrance.v
theories/Proof_Crit.v
theories/Props_Path.v
theories/Model_Nested.v
theories/Spec_Nested.v
theories/Proof_Nested.v
theories/Proof_Nested2.v
theories/Flt.v
theories/Ex_Nested.v
theories/Props_Nested.v
theories/Model_Progress.v
theories/Spec_Progress.v
theories/Proof_Progress.v
theories/Props_Progress.v
theories/Model_Save.v
theories/Proof_Save.v
theories/Props_Save.v
theories/Model_Omp.v
theories/Spec_Omp.v
theories/Proof_Omp.v
theories/Proof_Omp2.v
theories/Props_Omp.v
theories/Model_Cohen.v
theories/Proof_Cohen.v
theories/Props_Cohen.v
theories/Props_CohenLasso.v
theories/Model_Threshold.v
theories/Proof_Threshold.v
theories/Props_Threshold.v
theories/Model_Cmd.v
theories/Spec_Cmd.v
theories/Proof_Cmd.v
theories/Props_Cmd.v
theories/Spec_LassoCmd.v
theories/Proof_LassoCmd.v
theories/Props_LassoCmd.v
theories/Props_LassoArgs.v
theories/Props_CrdExact.v
theories/Proof_CrdCmd.v
theories/Props_CrdCmd.v
theories/Model_Cmd2.v
theories/Props_CohenCmd.v
theories/Props_NestedCmd.v
theories/Props_NestedLoop.v
theories/Model_Plot.v
theories/Spec_Plot.v
theories/Proof_Plot.v
theories/Props_Plot.v
theories/Proof_Gram.v
theories/Spec_Units.v
theories/Props_Units.v
theories/Proof_Enet.v
theories/Props_Enet.v
theories/Model_Bnb.v
theories/Proof_Anneal.v
theories/Proof_Anneal2.v
theories/Proof_Anneal3.v
theories/Props_Anneal.v
theories/Props_Bnb.v
theories/Props_Equal.v
theories/Props_EqualSym.v
theories/Spec_Subset.v
theories/Proof_Subset.v
theories/Props_Subset.v
theories/Props_Pursuit.v
theories/Props_KKT.v
theories/Spec_Sign.v
theories/Proof_Sign.v
theories/Proof_Sign2.v
theories/Proof_Sign3.v
theories/Props_Sign.v
theories/Props_Stop.v
theories/Model_Opt.v
theories/Props_Opt.v
theories/Spec_Sign2.v
theories/Proof_Sign4.v
theories/Props_Sign2.v
theories/Props_CLasso.v
theories/Props_Bounds.v
theories/Props_Columns.v
theories/Props_Strict.v
theories/Model_HSPtr.v
theories/Props_HSPtr.v
theories/Props_SABrute.v
theories/Props_Agree.v
theories/Props_Recover.v
theories/Model_CSVBytes.v
theories/Spec_CSVBytes.v
theories/Proof_CSVBytes.v
theories/Props_CSVBytes.v
theories/Model_Flags.v
theories/Props_Flags.v
theories/Model_Demo.v
theories/Props_Demo.v
theories/Model_Shell.v
theories/Props_Shell.v
theories/Model_JSON.v
theories/Spec_JSON.v
theories/Proof_JSON.v
theories/Proof_JSON2.v
theories/Model_JSONFiles.v
theories/Props_JSON.v
theories/Spec_JSONText.v
theories/Proof_JSONText.v
theories/Props_JSONText.v
theories/Spec_JSONSyntax.v
theories/Proof_JSONSyntax.v
theories/Props_JSONSyntax.v
theories/Model_Chain.v
theories/Props_Chain.v
theories/Model_BnbShell.v
theories/Props_BnbShell.v
theories/Model_Root.v
theories/Props_Root.v
theories/Props_RootNamed.v
