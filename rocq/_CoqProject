-Q theories Verif
theories/L_Arrays.v
theories/L_Arrays2.v
theories/L_Arrays3.v
theories/L_Arrays4.v
theories/L_Bags.v
theories/L_Bags2.v
theories/L_Bags3.v
theories/L_Bags4.v
theories/L_Base.v
theories/L_Baselines.v
theories/L_Cuts.v
theories/L_Data.v
theories/L_EM.v
theories/L_EM2.v
theories/L_EM3.v
theories/L_Energy.v
theories/L_Energy2.v
theories/L_Energy3.v
theories/L_Eoq.v
theories/L_Eoq10.v
theories/L_Eoq11.v
theories/L_Eoq2.v
theories/L_Eoq3.v
theories/L_Eoq4.v
theories/L_Eoq5.v
theories/L_Eoq6.v
theories/L_Eoq7.v
theories/L_Eoq8.v
theories/L_Eoq9.v
theories/L_Error.v
theories/L_Error2.v
theories/L_Error3.v
theories/L_Error4.v
theories/L_Estimators.v
theories/L_Estimators2.v
theories/L_Estimators3.v
theories/L_Fit.v
theories/L_Fit10.v
theories/L_Fit11.v
theories/L_Fit12.v
theories/L_Fit13.v
theories/L_Fit14.v
theories/L_Fit15.v
theories/L_Fit16.v
theories/L_Fit17.v
theories/L_Fit2.v
theories/L_Fit3.v
theories/L_Fit4.v
theories/L_Fit5.v
theories/L_Fit6.v
theories/L_Fit7.v
theories/L_Fit8.v
theories/L_Fit9.v
theories/L_Float.v
theories/L_Float10.v
theories/L_Float11.v
theories/L_Float12.v
theories/L_Float13.v
theories/L_Float14.v
theories/L_Float15.v
theories/L_Float16.v
theories/L_Float17.v
theories/L_Float18.v
theories/L_Float19.v
theories/L_Float2.v
theories/L_Float20.v
theories/L_Float21.v
theories/L_Float22.v
theories/L_Float23.v
theories/L_Float24.v
theories/L_Float25.v
theories/L_Float3.v
theories/L_Float4.v
theories/L_Float5.v
theories/L_Float6.v
theories/L_Float7.v
theories/L_Float8.v
theories/L_Float9.v
theories/L_FloatOrd.v
theories/L_FloatOrd2.v
theories/L_History.v
theories/L_History2.v
theories/L_History3.v
theories/L_Invariance.v
theories/L_Invariance2.v
theories/L_Losses.v
theories/L_Losses2.v
theories/L_Losses3.v
theories/L_Match.v
theories/L_Match10.v
theories/L_Match11.v
theories/L_Match12.v
theories/L_Match13.v
theories/L_Match2.v
theories/L_Match3.v
theories/L_Match4.v
theories/L_Match5.v
theories/L_Match6.v
theories/L_Match7.v
theories/L_Match8.v
theories/L_Match9.v
theories/L_Metrics.v
theories/L_Metrics2.v
theories/L_Metrics3.v
theories/L_Num.v
theories/L_Optim.v
theories/L_Optim2.v
theories/L_Optim3.v
theories/L_Optim4.v
theories/L_Optim5.v
theories/L_Ordinal.v
theories/L_Ordinal2.v
theories/L_Ordinal3.v
theories/L_Ordinal4.v
theories/L_Params.v
theories/L_Plot.v
theories/L_Quantiles.v
theories/L_Quantiles2.v
theories/L_Rebin.v
theories/L_Recover.v
theories/L_Reg.v
theories/L_Reg2.v
theories/L_Reg3.v
theories/L_Reg4.v
theories/L_Reg5.v
theories/L_Reg6.v
theories/L_Reg7.v
theories/L_Rename.v
theories/L_Rename2.v
theories/L_Rename3.v
theories/L_Retune.v
theories/L_Retune2.v
theories/L_Search.v
theories/L_Search2.v
theories/L_Search3.v
theories/L_Sord.v
theories/L_Uniform.v
theories/M_Arrays.v
theories/M_Bags.v
theories/M_Base.v
theories/M_Baselines.v
theories/M_Data.v
theories/M_EM.v
theories/M_Eoq.v
theories/M_Eoq2.v
theories/M_Estimators.v
theories/M_Fit.v
theories/M_Fit2.v
theories/M_Fit3.v
theories/M_Fit4.v
theories/M_Fit5.v
theories/M_Fit6.v
theories/M_Fit7.v
theories/M_Fit8.v
theories/M_Fit9.v
theories/M_Float.v
theories/M_Float2.v
theories/M_Float3.v
theories/M_Float4.v
theories/M_Float5.v
theories/M_Float6.v
theories/M_Float7.v
theories/M_History.v
theories/M_Match.v
theories/M_Metrics.v
theories/M_Optim.v
theories/M_Ordinal.v
theories/M_Params.v
theories/M_Plot.v
theories/M_Rebin.v
theories/M_Reg.v
theories/M_Retune.v
theories/M_Search.v
theories/Num.v
theories/Properties_Arrays.v
theories/Properties_Bags.v
theories/Properties_Base.v
theories/Properties_Baselines.v
theories/Properties_Cuts.v
theories/Properties_EM.v
theories/Properties_EM2.v
theories/Properties_Energy.v
theories/Properties_Eoq.v
theories/Properties_Eoq2.v
theories/Properties_Error.v
theories/Properties_Estimators.v
theories/Properties_Fit.v
theories/Properties_Fit2.v
theories/Properties_Fit3.v
theories/Properties_Fit4.v
theories/Properties_Fit5.v
theories/Properties_Fit6.v
theories/Properties_Fit7.v
theories/Properties_Fit8.v
theories/Properties_Fit9.v
theories/Properties_Float.v
theories/Properties_Float2.v
theories/Properties_Float3.v
theories/Properties_Float4.v
theories/Properties_Float5.v
theories/Properties_FloatOrd.v
theories/Properties_History.v
theories/Properties_Invariance.v
theories/Properties_Losses.v
theories/Properties_Match.v
theories/Properties_Metrics.v
theories/Properties_Optim.v
theories/Properties_Ordinal.v
theories/Properties_Params.v
theories/Properties_Plot.v
theories/Properties_Rebin.v
theories/Properties_Reg.v
theories/Properties_Rename.v
theories/Properties_Retune.v
theories/Properties_Search.v
theories/Properties_Uniform.v
theories/Spec.v
theories/Spec_Arrays.v
theories/Spec_Bags.v
theories/Spec_Base.v
theories/Spec_Cuts.v
theories/Spec_EM.v
theories/Spec_Energy.v
theories/Spec_Eoq.v
theories/Spec_Eoq2.v
theories/Spec_Error.v
theories/Spec_Estimators.v
theories/Spec_Fit.v
theories/Spec_Fit2.v
theories/Spec_Fit3.v
theories/Spec_Fit4.v
theories/Spec_Fit5.v
theories/Spec_Fit6.v
theories/Spec_Fit7.v
theories/Spec_Fit8.v
theories/Spec_Fit9.v
theories/Spec_Float.v
theories/Spec_Float2.v
theories/Spec_FloatOrd.v
theories/Spec_History.v
theories/Spec_Invariance.v
theories/Spec_Losses.v
theories/Spec_Match.v
theories/Spec_Metrics.v
theories/Spec_Optim.v
theories/Spec_Ordinal.v
theories/Spec_Params.v
theories/Spec_Plot.v
theories/Spec_Rebin.v
theories/Spec_Reg.v
theories/Spec_Rename.v
theories/Spec_Retune.v
theories/Spec_Search.v
theories/Spec_Uniform.v
