-Q theories Verif

theories/Base.v
theories/Flags.v
theories/Protocol.v
theories/Url.v
theories/Sets.v
theories/FilterM.v
theories/ParseM.v
theories/ClientM.v
theories/SerialM.v
theories/OwnM.v
theories/OwnT.v
theories/JsM.v
theories/CosmeticM.v
theories/Spec.v
theories/SpecM.v
theories/SpecC.v
theories/SpecS.v
theories/SpecO.v
theories/SpecJ.v
theories/SpecK.v
theories/SpecR.v
theories/SpecF.v
theories/SpecQ.v
theories/SpecE.v
theories/SpecU.v
theories/SpecN.v
theories/SpecW.v
theories/P_Base.v
theories/P_Protocol.v
theories/P_Url.v
theories/P_Match.v
theories/P_Rule.v
theories/P_Parse.v
theories/P_List.v
theories/P_Shape.v
theories/P_Fp.v
theories/P_Line.v
theories/P_Props1.v
theories/P_Props2.v
theories/P_Props3.v
theories/P_Line2.v
theories/P_Line3.v
theories/P_Line4.v
theories/P_Line5.v
theories/P_Fp2.v
theories/P_Match2.v
theories/P_Over.v
theories/P_Opt.v
theories/P_Opt2.v
theories/SpecG.v
theories/P_Rx.v
theories/P_Abb.v
theories/P_Abb2.v
theories/P_Set.v
theories/P_Client.v
theories/P_Decide.v
theories/P_Hist.v
theories/P_Dec2.v
theories/P_Dec3.v
theories/P_Dec4.v
theories/P_Dec5.v
theories/P_Dec6.v
theories/P_Dec7.v
theories/P_Dec8.v
theories/P_Like.v
theories/P_Js.v
theories/P_Ser1.v
theories/P_Ser2.v
theories/P_Ser3.v
theories/P_Ser4.v
theories/P_Ser5.v
theories/P_Ser6.v
theories/SpecD.v
theories/P_Ser7.v
theories/P_File.v
theories/P_File2.v
theories/P_File3.v
theories/P_Cut.v
theories/DataM.v
theories/ListsM.v
theories/ToolM.v
theories/SpecT.v
theories/SpecL.v
theories/SpecX.v
theories/SpecTool.v
theories/P_Own.v
theories/P_Own2.v
theories/P_Own3.v
theories/P_Own4.v
theories/P_Own5.v
theories/P_OwnT.v
theories/P_OwnT2.v
theories/P_Ex.v
theories/P_Js2.v
theories/P_Cos.v
theories/P_Life.v
theories/P_Life2.v
theories/P_Stat.v
theories/P_Data.v
theories/CatalogM.v
theories/PublishM.v
theories/PerfM.v
theories/SpecP.v
theories/SpecA.v
theories/P_Tool.v
theories/P_Pub.v
theories/P_Perf.v
theories/CheckM.v
theories/SpecY.v
theories/P_Check.v
theories/P_Safe.v
theories/P_Fault.v
theories/P_End.v
theories/P_Exact.v
theories/SpecI.v
theories/P_Cond.v
theories/SpecH.v
theories/P_Rx3.v
theories/P_Text.v
theories/P_Text2.v
theories/SpecZ.v
theories/P_Hosts.v
theories/BindM.v
theories/SpecV.v
theories/P_Utf.v
theories/P_Utf2.v
theories/SpecB.v
theories/P_Bind.v
theories/P_Args.v
theories/P_Save.v
theories/P_Obj.v
theories/P_Size.v
theories/P_Size2.v
theories/SpecLine.v
theories/P_Read.v
theories/P_Read2.v
theories/P_Read3.v
theories/P_Read4.v
theories/P_Read5.v
theories/SpecAny.v
theories/SpecFile.v
theories/P_Any.v
theories/P_Any2.v
theories/Props_Url.v
theories/Props_List.v
theories/Props_Fp.v
theories/Props_Line.v
theories/Props_Match.v
theories/Props_Over.v
theories/Props_Opt.v
theories/Props_Rx.v
theories/Props_Fault.v
theories/Props_Client.v
theories/Props_Serial.v
theories/Props_Serial2.v
theories/Props_Own.v
theories/Props_OwnT.v
theories/SpecMem.v
theories/P_Mem.v
theories/P_Mem2.v
theories/P_Mem3.v
theories/Props_Mem.v
theories/Props_Js.v
theories/Props_Life.v
theories/Props_Tool.v
theories/Props_Pub.v
theories/Props_Perf.v
theories/Props_Check.v
theories/Props_End.v
theories/Props_Exact.v
theories/Props_Cond.v
theories/Props_Text.v
theories/Props_Hosts.v
theories/Props_Bind.v
theories/Props_Args.v
theories/Props_Save.v
theories/Props_Size.v
theories/Props_Read.v
theories/Props_Any.v
theories/Props_File.v
theories/Tests.v
theories/SpecOrd.v
theories/P_Ord.v
theories/P_Ord2.v
theories/P_Ord3.v
theories/Props_Ord.v
theories/ProcM.v
theories/SpecProc.v
theories/P_Proc.v
theories/P_Proc2.v
theories/Props_Proc.v
theories/ConcM.v
theories/SpecConc.v
theories/P_Conc.v
theories/P_Conc2.v
theories/P_Conc3.v
theories/Props_Conc.v
theories/DomM.v
theories/SpecDom.v
theories/P_Dom.v
theories/P_Dom2.v
theories/Props_Dom.v
theories/ManyM.v
theories/SpecMany.v
theories/P_Many.v
theories/P_Many2.v
theories/P_Many3.v
theories/P_Many4.v
theories/Props_Many.v
theories/HostM.v
theories/SpecHost.v
theories/P_Host.v
theories/P_Host2.v
theories/Props_Host.v
theories/NetM.v
theories/SpecNet.v
theories/P_Net.v
theories/P_Net2.v
theories/Props_Net.v
theories/DiskM.v
theories/SpecDisk.v
theories/P_Disk.v
theories/Props_Disk.v
theories/UploadM.v
theories/SpecUp.v
theories/P_Up.v
theories/Props_Up.v
theories/SpecDef.v
theories/P_Def.v
theories/Props_Def.v
theories/SpecConst.v
theories/P_Const.v
theories/Props_Const.v
theories/P_Caret.v
theories/Props_Caret.v
theories/SpecParty.v
theories/P_Party.v
theories/Props_Party.v
theories/SpecAnswer.v
theories/P_Answer.v
theories/Props_Answer.v
