-Q theories Verif
theories/Base.v
theories/M_Split.v
theories/S_Split.v
theories/L_Split.v
theories/C_Split.v
theories/P_Split.v
theories/M_Stream.v
theories/M_Format.v
theories/S_Num.v
theories/S_Format.v
theories/L_Num.v
theories/L_Format.v
theories/S_Field.v
theories/L_Field.v
theories/C_Format.v
theories/P_Format.v
theories/M_MailBox.v
theories/L_Map.v
theories/S_MailBox.v
theories/L_MailBox.v
theories/C_MailBox.v
theories/P_MailBox.v
theories/M_MailBoxConc.v
theories/S_MailBoxConc.v
theories/L_MailBoxConc.v
theories/C_MailBoxConc.v
theories/P_MailBoxConc.v
theories/M_Barrier.v
theories/S_Barrier.v
theories/L_Barrier.v
theories/L_BarrierN.v
theories/L_BarrierT.v
theories/C_Barrier.v
theories/P_Barrier.v
theories/L_BarrierR.v
theories/M_StreamIn.v
theories/M_Options.v
theories/S_Options.v
theories/L_Options.v
theories/L_OptionsI.v
theories/C_Options.v
theories/L_StreamIn.v
theories/L_OptionsT.v
theories/C_OptionsP.v
theories/P_Options.v
theories/M_PropertyTree.v
theories/S_PropertyTree.v
theories/L_PropertyTree.v
theories/L_PropertyTreeP.v
theories/C_PropertyTree.v
theories/P_PropertyTree.v
theories/S_Messages.v
theories/C_Messages.v
theories/P_Messages.v
theories/M_Float.v
theories/M_FormatF.v
theories/L_Float.v
theories/L_FormatF.v
theories/L_FormatG.v
theories/L_FormatH.v
theories/S_FormatF.v
theories/L_Dec.v
theories/L_FormatI.v
theories/L_FormatJ.v
theories/L_Near.v
theories/L_FormatK.v
theories/L_FormatL.v
theories/L_FormatX.v
theories/L_FormatM.v
theories/C_FormatF.v
theories/P_FormatF.v
theories/L_FormatWide.v
theories/P_FormatWide.v
theories/M_FormatMem.v
theories/L_FormatMem.v
theories/P_FormatMem.v
theories/M_FormatThreads.v
theories/S_FormatThreads.v
theories/L_FormatThreads.v
theories/P_FormatThreads.v
theories/M_StreamFloat.v
theories/S_FloatIn.v
theories/L_FloatIn.v
theories/L_FloatR.v
theories/L_FloatBack.v
theories/C_FloatIn.v
theories/P_FloatIn.v
theories/P_Back.v
theories/M_Round.v
theories/L_Round.v
theories/L_RoundB.v
theories/P_Round.v
theories/S_Publish.v
theories/L_Publish.v
theories/L_PublishM.v
theories/P_Publish.v
theories/P_Lines.v
theories/L_Progress.v
theories/L_BarrierZ.v
theories/P_Progress.v
theories/L_PublishO.v
theories/S_Dump.v
theories/L_Dump.v
theories/P_Dump.v
theories/M_FormatExt.v
theories/S_FormatExt.v
theories/L_FormatExt.v
theories/P_FormatExt.v
theories/M_OptionsObj.v
theories/S_OptionsObj.v
theories/L_OptionsObj.v
theories/P_OptionsObj.v
theories/M_Exchange.v
theories/S_Exchange.v
theories/L_Exchange.v
theories/L_ExchangeK.v
theories/L_ExchangeG.v
theories/L_ExchangeP.v
theories/P_Exchange.v
theories/P_Convert.v
theories/T_Repo.v
theories/M_MailBoxLife.v
theories/S_MailBoxLife.v
theories/L_MailBoxLife.v
theories/P_MailBoxLife.v
theories/M_BarrierLife.v
theories/P_BarrierLife.v
theories/M_MailBoxMem.v
theories/S_MailBoxMem.v
theories/L_MailBoxMem.v
theories/P_MailBoxMem.v
theories/L_BarrierA.v
theories/P_BarrierAfter.v
theories/M_OptionsTest.v
theories/S_OptionsTest.v
theories/L_OptionsTest.v
theories/P_OptionsTest.v
theories/M_BarrierUse.v
theories/S_BarrierUse.v
theories/L_BarrierUse.v
theories/C_BarrierUse.v
theories/P_BarrierUse.v
theories/P_Unsigned.v
theories/M_TreeObj.v
theories/S_TreeObj.v
theories/S_TreeTypes.v
theories/P_TreeObj.v
theories/P_TreeTypes.v
theories/S_Pipeline.v
theories/P_Pipeline.v
theories/M_BarrierTime.v
theories/S_BarrierTime.v
theories/P_BarrierTime.v
theories/P_BarrierBroke.v
theories/M_OptionsExample.v
theories/S_OptionsExample.v
theories/C_OptionsExample.v
theories/P_OptionsExample.v
theories/M_YamlExample.v
theories/P_YamlExample.v
theories/M_TestMain.v
theories/S_TestMain.v
theories/C_TestMain.v
theories/C_TestRun.v
theories/C_TestMail.v
theories/P_TestBarrier.v
theories/P_TestMail.v
theories/S_ExchangeFair.v
theories/L_Seq.v
theories/S_Fair.v
theories/L_FairBox.v
theories/L_FairBar.v
theories/L_FairAll.v
theories/L_FairEx.v
theories/P_Fair.v
theories/L_FairPipe.v
theories/L_FairCycle.v
theories/P_FairPipe.v
theories/L_ExchangeF.v
theories/P_ExchangeFair.v
theories/S_FairUse.v
theories/L_FairUse.v
theories/P_FairUse.v
theories/M_OptionsTestProg.v
theories/S_OptionsTestProg.v
theories/L_OptionsTestProg.v
theories/C_OptionsTestProg.v
theories/P_OptionsTestProg.v
theories/M_FormatTestProg.v
theories/S_FormatTestProg.v
theories/L_FormatTestProg.v
theories/C_FormatTestProg.v
theories/P_FormatTestProg.v
theories/M_FormatOwn.v
theories/S_FormatOwn.v
theories/L_FormatOwn.v
theories/P_FormatOwn.v
theories/M_SmallTests.v
theories/S_SmallTests.v
theories/L_SmallTests.v
theories/P_SmallTests.v
theories/S_SplitJoin.v
theories/L_SplitJoin.v
theories/P_SplitJoin.v
theories/M_NaNTest.v
theories/S_NaNTest.v
theories/L_NaNTest.v
theories/P_NaNTest.v
