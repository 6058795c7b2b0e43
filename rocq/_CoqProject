-Q theories Verif
theories/Base.v
theories/CTypes.v
theories/StringUtils.v
theories/Dates.v
theories/Doubles.v
theories/Base64.v
theories/HwId.v
theories/Registry.v
theories/Ini.v
theories/Network.v
theories/Disks.v
theories/CpuInfo.v
theories/ExecEnv.v
theories/Strategies.v
theories/Locate.v
theories/Licensecc.v
theories/P_Base.v
theories/P_Double.v
theories/Spec_Strings.v
theories/P_Strings.v
theories/P_Text.v
theories/Prop_Strings.v
theories/Spec_Base64.v
theories/P_Base64.v
theories/P_Decode.v
theories/Prop_Base64.v
theories/Spec_HwId.v
theories/P_HwId.v
theories/P_HwText.v
theories/Prop_HwId.v
theories/Spec_Registry.v
theories/P_Registry.v
theories/Prop_Registry.v
theories/Spec_Ini.v
theories/P_Ini.v
theories/P_IniSave.v
theories/Prop_Ini.v
theories/Spec_Disks.v
theories/P_Disks.v
theories/P_Blkid.v
theories/P_Blkid2.v
theories/Spec_Listing.v
theories/P_DiskList.v
theories/Spec_Hw.v
theories/P_Hw.v
theories/P_Hw2.v
theories/P_Listing.v
theories/P_Hw3.v
theories/Prop_Hw.v
theories/P_Blkid3.v
theories/Spec_Prefer.v
theories/P_Prefer.v
theories/P_Prefer2.v
theories/Prop_Disks.v
theories/Spec_Dates.v
theories/P_Dates.v
theories/P_DateText.v
theories/Prop_Dates.v
theories/Spec_Exec.v
theories/Spec_Cpu.v
theories/P_Cpu.v
theories/P_Exec.v
theories/P_Exec2.v
theories/Prop_Exec.v
theories/Spec_Choice.v
theories/P_Choice.v
theories/Prop_Choice.v
theories/Spec_Acquire.v
theories/P_Acquire1.v
theories/P_Acquire2.v
theories/P_Acquire3.v
theories/P_Acquire4.v
theories/P_Acquire5.v
theories/Ex_Acquire.v
theories/Prop_Acquire.v
theories/Spec_Faults.v
theories/P_Faults.v
theories/P_Faults2.v
theories/Prop_Faults.v
theories/Spec_Ext.v
theories/P_Ext.v
theories/Prop_Isolation.v
theories/Prop_Status.v
theories/Spec_Signature.v
theories/P_Signature.v
theories/Prop_Signature.v
theories/Logger.v
theories/Prop_Logger.v
theories/WinSmbios.v
theories/Spec_Smbios.v
theories/P_Smbios.v
theories/P_Smbios2.v
theories/Prop_Smbios.v
theories/WinNetwork.v
theories/Spec_WinNet.v
theories/P_WinNet.v
theories/Prop_WinNet.v
theories/Shared.v
theories/P_Shared.v
theories/WinMachine.v
theories/Spec_Windows.v
theories/P_Windows.v
theories/P_WinExec.v
theories/P_WinPick.v
theories/Prop_Windows.v
theories/Trace.v
theories/Spec_Resources.v
theories/Spec_Der.v
theories/WinSignature.v
theories/P_WinSig.v
theories/Prop_WinSig.v
theories/OpenSsl.v
theories/Prop_OpenSsl.v
theories/Inspector.v
theories/Prop_Inspector.v
theories/InspectorMain.v
theories/Prop_InspectorMain.v
theories/IniBuf.v
theories/P_IniBuf.v
theories/P_IniBuf2.v
theories/Spec_IniBuf.v
theories/Prop_IniBuf.v
theories/AcquireGen.v
theories/Spec_AcquireGen.v
theories/P_AcqGen1.v
theories/P_AcqGen2.v
theories/Spec_WinAcquire.v
theories/Prop_WinAcquire.v
theories/Spec_WinFaults.v
theories/P_WinFaults.v
theories/Prop_WinFaults.v
theories/Spec_Layout.v
theories/P_Layout.v
theories/Prop_Layout.v
theories/Spec_Issue.v
theories/Prop_Issue.v
theories/P_Rel.v
theories/Spec_Repeat.v
theories/Prop_Repeat.v
theories/AcquireIo.v
theories/Spec_Accesses.v
theories/P_Io.v
theories/P_Io2.v
theories/Prop_Accesses.v
theories/Spec_Threads.v
theories/Prop_Threads.v
theories/Prop_Enrol.v
theories/Spec_Passing.v
theories/Prop_Passing.v
theories/HwResources.v
theories/Prop_HwRes.v
theories/Spec_Refused.v
theories/Prop_Refused.v
theories/ConvertUtf.v
theories/Spec_Utf.v
theories/P_Utf.v
theories/P_Utf2.v
theories/P_Utf3.v
theories/P_Utf4.v
theories/Prop_Utf.v
theories/Prop_UtfWide.v
theories/InspectorOut.v
theories/Spec_Report.v
theories/Prop_Report.v
theories/SysFiles.v
theories/Spec_SysFiles.v
theories/Prop_SysFiles.v
theories/Spec_Delivery.v
theories/P_Selected.v
theories/P_Delivery.v
theories/P_Delivery2.v
theories/Prop_Delivery.v
theories/Prop_WinIssue.v
theories/Spec_Found.v
theories/P_Found.v
theories/Prop_Found.v
theories/IdThreads.v
theories/Spec_IdThreads.v
theories/Prop_IdThreads.v
theories/Statics.v
theories/Spec_Statics.v
theories/Prop_Statics.v
theories/Spec_WinRepeat.v
theories/Prop_WinRefer.v
theories/Spec_WinExt.v
theories/Prop_WinLayout.v
theories/Spec_WinPassing.v
theories/Prop_WinPassing.v
theories/Spec_WinRefused.v
theories/Prop_WinRefused.v
theories/IniEdit.v
theories/Spec_IniEdit.v
theories/IniCalls.v
theories/P_IniEdit.v
theories/P_IniEdit2.v
theories/P_IniEdit3.v
theories/P_IniEdit4.v
theories/P_IniEdit5.v
theories/P_IniEdit6.v
theories/P_IniEdit7.v
theories/P_IniEdit8.v
theories/P_IniEdit9.v
theories/P_IniEdit10.v
theories/P_IniEdit11.v
theories/P_IniDoc.v
theories/P_IniMem.v
theories/P_IniNum.v
theories/Prop_IniEdit.v
theories/Prop_IniMem.v
theories/Prop_IniTyped.v
theories/Spec_IniText.v
theories/P_IniText.v
theories/Prop_IniText.v
theories/IniMulti.v
theories/Spec_IniMulti.v
theories/P_IniMulti.v
theories/P_IniMulti2.v
theories/P_IniMulti3.v
theories/P_IniMulti4.v
theories/P_IniMulti5.v
theories/P_IniMulti6.v
theories/P_IniMulti7.v
theories/Prop_IniMulti.v
theories/Spec_IniMultiText.v
theories/P_IniMultiText.v
theories/P_IniReload.v
theories/Prop_IniMultiText.v
theories/P_IniCom.v
theories/P_IniCom2.v
theories/Spec_IniSame.v
theories/P_IniCom3.v
theories/P_IniCom4.v
theories/P_IniSame.v
theories/P_IniSame2.v
theories/P_IniSame3.v
theories/Prop_IniSame.v
theories/FileSteps.v
theories/Spec_FileSteps.v
theories/P_FileSteps.v
theories/Prop_FileSteps.v
theories/StrToD.v
theories/Spec_Double.v
theories/P_Double1.v
theories/P_Double2.v
theories/P_Double3.v
theories/P_Double4.v
theories/Prop_Double.v
theories/Spec_Cut.v
theories/P_Cut.v
theories/P_Cut2.v
theories/Prop_Cut.v
theories/IniFile.v
theories/Spec_IniFile.v
theories/P_IniFile.v
theories/Prop_IniFile.v
theories/IniBom.v
theories/P_IniBom.v
theories/Prop_IniBom.v
theories/MntEnt.v
theories/Spec_MntEnt.v
theories/Prop_MntEnt.v
theories/Spec_IniLayers.v
theories/P_IniLayers.v
theories/Prop_IniLayers.v
theories/Regex.v
theories/Spec_Regex.v
theories/P_Regex.v
theories/P_RegexFmt.v
theories/Prop_Regex.v
theories/Shortage.v
theories/Spec_Shortage.v
theories/Prop_Shortage.v
theories/LogText.v
theories/Spec_LogText.v
theories/P_LogText.v
theories/Prop_LogText.v
theories/WinShortage.v
theories/Spec_WinShortage.v
theories/Prop_WinShortage.v
theories/Prop_RegexDepth.v
theories/DiskId.v
theories/Spec_DiskId.v
theories/Prop_DiskId.v
theories/Prop_SysLines.v
