-Q theories Verif
theories/Base.v
theories/L_Accuracy.v
theories/L_Accuracy2.v
theories/L_Accuracy3.v
theories/L_Accuracy4.v
theories/L_Archive.v
theories/L_Args.v
theories/L_CApi.v
theories/L_CApi2.v
theories/L_CApi3.v
theories/L_CApi4.v
theories/L_Client.v
theories/L_Client2.v
theories/L_Client3.v
theories/L_Client4.v
theories/L_Client5.v
theories/L_Client6.v
theories/L_Codec.v
theories/L_Codec2.v
theories/L_Compare.v
theories/L_Compare2.v
theories/L_Compare3.v
theories/L_CompareTr.v
theories/L_CompareTr2.v
theories/L_Conc.v
theories/L_Conc2.v
theories/L_Conc3.v
theories/L_Conc4.v
theories/L_Conc5.v
theories/L_Conc6.v
theories/L_Date.v
theories/L_Date2.v
theories/L_Date3.v
theories/L_Date4.v
theories/L_Date5.v
theories/L_Docs.v
theories/L_Docs10.v
theories/L_Docs11.v
theories/L_Docs12.v
theories/L_Docs2.v
theories/L_Docs3.v
theories/L_Docs4.v
theories/L_Docs5.v
theories/L_Docs6.v
theories/L_Docs7.v
theories/L_Docs8.v
theories/L_Docs9.v
theories/L_Dot.v
theories/L_Dot2.v
theories/L_Dot3.v
theories/L_Early.v
theories/L_Early2.v
theories/L_Encoders.v
theories/L_Errors.v
theories/L_Errors2.v
theories/L_Errors3.v
theories/L_Estimator.v
theories/L_Featurizer.v
theories/L_Filter.v
theories/L_Float.v
theories/L_FloatKeys.v
theories/L_FloatMode.v
theories/L_FloatScale.v
theories/L_FloatScale2.v
theories/L_FloatScale3.v
theories/L_FloatScale4.v
theories/L_FloatScale5.v
theories/L_FloatScale6.v
theories/L_FloatScale7.v
theories/L_FloatScale8.v
theories/L_FloatStats.v
theories/L_FloatStats2.v
theories/L_FloatStats3.v
theories/L_FloatStats4.v
theories/L_FloatStats5.v
theories/L_FloatStats6.v
theories/L_FloatText.v
theories/L_FloatText2.v
theories/L_FloatText3.v
theories/L_FloatText4.v
theories/L_Flush.v
theories/L_Flush2.v
theories/L_Flush3.v
theories/L_Grain.v
theories/L_Grain2.v
theories/L_Grain3.v
theories/L_Grain4.v
theories/L_Grain5.v
theories/L_GrainWindow.v
theories/L_GrainWindow2.v
theories/L_GrainWindow3.v
theories/L_Handed.v
theories/L_HexText.v
theories/L_Impute.v
theories/L_Keeps.v
theories/L_Keeps2.v
theories/L_Keeps3.v
theories/L_Keyed.v
theories/L_List.v
theories/L_Loaded.v
theories/L_Matrix.v
theories/L_Matrix2.v
theories/L_Matrix3.v
theories/L_Matrix4.v
theories/L_Matrix5.v
theories/L_Matrix6.v
theories/L_Matrix7.v
theories/L_MatrixEq.v
theories/L_Mem.v
theories/L_Mem2.v
theories/L_Mem3.v
theories/L_Mem4.v
theories/L_Murmur.v
theories/L_OnePass.v
theories/L_Order.v
theories/L_Order2.v
theories/L_Order3.v
theories/L_Order4.v
theories/L_Order5.v
theories/L_Order6.v
theories/L_Order7.v
theories/L_Pipeline.v
theories/L_Pipeline2.v
theories/L_Pipeline3.v
theories/L_PointerTable.v
theories/L_PtConc.v
theories/L_Recipes.v
theories/L_Recipes2.v
theories/L_Recipes3.v
theories/L_Recipes4.v
theories/L_Recipes5.v
theories/L_Recipes6.v
theories/L_Recipes7.v
theories/L_Recipes8.v
theories/L_Refused.v
theories/L_Refused2.v
theories/L_Refused3.v
theories/L_Refused4.v
theories/L_SampleAdd.v
theories/L_Save.v
theories/L_Scale.v
theories/L_Scale2.v
theories/L_Scale3.v
theories/L_Scale4.v
theories/L_Scale5.v
theories/L_Stats.v
theories/L_Stats2.v
theories/L_Stats3.v
theories/L_String.v
theories/L_Text.v
theories/L_Text2.v
theories/L_Text3.v
theories/L_Text4.v
theories/L_TfidfNorm.v
theories/L_TfidfNorm2.v
theories/L_TfidfNorm3.v
theories/L_TfidfNorm4.v
theories/L_TimeText.v
theories/L_TimeText2.v
theories/L_TimeText3.v
theories/L_TimeText4.v
theories/L_TsImpute.v
theories/L_TsImpute2.v
theories/L_TsImpute3.v
theories/L_TsImpute4.v
theories/L_TsMedian.v
theories/L_TsRows.v
theories/L_TsRows2.v
theories/L_TsRows3.v
theories/L_TsRows4.v
theories/L_TsSave.v
theories/L_TsTrain.v
theories/L_TsTrain2.v
theories/L_TsTrain3.v
theories/L_TsTrain4.v
theories/L_TsTrain5.v
theories/L_TsTrain6.v
theories/L_TsTrain7.v
theories/L_Window.v
theories/L_Window2.v
theories/L_Window3.v
theories/M_Archive.v
theories/M_CApi.v
theories/M_Client.v
theories/M_Codec.v
theories/M_Compare.v
theories/M_CompareTr.v
theories/M_Conc.v
theories/M_Date.v
theories/M_Docs.v
theories/M_Dot.v
theories/M_Early.v
theories/M_Encoders.v
theories/M_Errors.v
theories/M_Estimator.v
theories/M_Featurizer.v
theories/M_Filter.v
theories/M_FloatScale.v
theories/M_FloatStats.v
theories/M_FloatText.v
theories/M_Grain.v
theories/M_GrainWindow.v
theories/M_Impute.v
theories/M_Keyed.v
theories/M_Loaded.v
theories/M_Matrix.v
theories/M_MatrixEq.v
theories/M_Mem.v
theories/M_Pipeline.v
theories/M_PointerTable.v
theories/M_PtConc.v
theories/M_Recipes.v
theories/M_Refused.v
theories/M_SampleAdd.v
theories/M_Save.v
theories/M_Scale.v
theories/M_Stats.v
theories/M_String.v
theories/M_Text.v
theories/M_TimeText.v
theories/M_TsImpute.v
theories/M_TsRows.v
theories/M_TsSave.v
theories/M_TsTrain.v
theories/M_Window.v
theories/P_Accuracy.v
theories/P_Archive.v
theories/P_CApi.v
theories/P_Client.v
theories/P_Codec.v
theories/P_Compare.v
theories/P_Conc.v
theories/P_Date.v
theories/P_Docs.v
theories/P_Dot.v
theories/P_Early.v
theories/P_Encoders.v
theories/P_Errors.v
theories/P_Estimator.v
theories/P_Featurizer.v
theories/P_FloatScale.v
theories/P_FloatStats.v
theories/P_FloatText.v
theories/P_Flush.v
theories/P_Grain.v
theories/P_GrainWindow.v
theories/P_Impute.v
theories/P_Keeps.v
theories/P_Loaded.v
theories/P_Matrix.v
theories/P_Mem.v
theories/P_Order.v
theories/P_Pipeline.v
theories/P_PointerTable.v
theories/P_Refused.v
theories/P_SampleAdd.v
theories/P_Save.v
theories/P_Scale.v
theories/P_Stats.v
theories/P_String.v
theories/P_Text.v
theories/P_TfidfNorm.v
theories/P_TimeText.v
theories/P_TsImpute.v
theories/P_TsRows.v
theories/P_TsSave.v
theories/P_TsTrain.v
theories/P_Window.v
theories/S_Accuracy.v
theories/S_Archive.v
theories/S_CApi.v
theories/S_Client.v
theories/S_Compare.v
theories/S_CompareTr.v
theories/S_Conc.v
theories/S_Date.v
theories/S_Docs.v
theories/S_Dot.v
theories/S_Early.v
theories/S_Encoders.v
theories/S_Errors.v
theories/S_Estimator.v
theories/S_Featurizer.v
theories/S_FloatScale.v
theories/S_FloatStats.v
theories/S_FloatText.v
theories/S_Flush.v
theories/S_Grain.v
theories/S_GrainWindow.v
theories/S_Handed.v
theories/S_HexText.v
theories/S_Impute.v
theories/S_Keeps.v
theories/S_Keyed.v
theories/S_Matrix.v
theories/S_Mem.v
theories/S_Order.v
theories/S_Pipeline.v
theories/S_PointerTable.v
theories/S_PtConc.v
theories/S_Refused.v
theories/S_SampleAdd.v
theories/S_Scale.v
theories/S_Stats.v
theories/S_Text.v
theories/S_TfidfNorm.v
theories/S_TimeText.v
theories/S_TsImpute.v
theories/S_TsRows.v
theories/S_TsSave.v
theories/S_TsTrain.v
theories/S_Window.v
