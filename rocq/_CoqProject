-Q theories Verif
theories/Base.v
theories/S_AppInfo.v
theories/S_Append.v
theories/S_Arr2.v
theories/S_Attr.v
theories/S_Cache.v
theories/S_CopyRace.v
theories/S_DirRace.v
theories/S_File.v
theories/S_Filesize.v
theories/S_Find.v
theories/S_Fork.v
theories/S_Hash.v
theories/S_HashFn.v
theories/S_Json.v
theories/S_Kernel.v
theories/S_Layout.v
theories/S_LibLife.v
theories/S_Life.v
theories/S_Line.v
theories/S_MixedVar.v
theories/S_MkdirRace.v
theories/S_Mode.v
theories/S_MutexEnd.v
theories/S_Name.v
theories/S_Named.v
theories/S_NamedFork.v
theories/S_Numeral.v
theories/S_Open.v
theories/S_Packed.v
theories/S_Path.v
theories/S_Queue.v
theories/S_Random.v
theories/S_ReplaceIn.v
theories/S_Secret.v
theories/S_Seq.v
theories/S_SharedLib.v
theories/S_Sync.v
theories/S_Time.v
theories/S_Tls.v
theories/S_TlsThreads.v
theories/S_TlsVar.v
theories/S_Tree.v
theories/S_Utf8.v
theories/S_Vec.v
theories/S_Where.v
theories/S_WinAppInfo.v
theories/S_WinFile.v
theories/S_WinMove.v
theories/S_WinNames.v
theories/S_WinPath.v
theories/S_WinReal.v
theories/S_WinStat.v
theories/S_WinTree.v
theories/M_AppInfo.v
theories/M_Append.v
theories/M_Arr2.v
theories/M_Attr.v
theories/M_Cache.v
theories/M_ConvertInt.v
theories/M_CopyRace.v
theories/M_Dir.v
theories/M_DirRace.v
theories/M_Dll.v
theories/M_Event.v
theories/M_File.v
theories/M_Find.v
theories/M_Hash.v
theories/M_HashFn.v
theories/M_Json.v
theories/M_Kernel.v
theories/M_Layout.v
theories/M_LibLife.v
theories/M_Life.v
theories/M_Line.v
theories/M_List.v
theories/M_MacAppInfo.v
theories/M_MixedVar.v
theories/M_MkdirMode.v
theories/M_MkdirRace.v
theories/M_Mode.v
theories/M_MoveSteps.v
theories/M_Mutex.v
theories/M_MutexEnd.v
theories/M_MutexFork.v
theories/M_Name.v
theories/M_Named.v
theories/M_NamedDie.v
theories/M_NamedFork.v
theories/M_Open.v
theories/M_Packed.v
theories/M_Path.v
theories/M_Queue.v
theories/M_QueueShare.v
theories/M_RW.v
theories/M_Random.v
theories/M_ReplaceIn.v
theories/M_RmdirFds.v
theories/M_Secret.v
theories/M_Sem.v
theories/M_SharedLib.v
theories/M_Time.v
theories/M_Tls.v
theories/M_TlsThreads.v
theories/M_TlsVar.v
theories/M_UserDir.v
theories/M_Utf8.v
theories/M_Vec.v
theories/M_Where.v
theories/M_WinAppInfo.v
theories/M_WinCwd.v
theories/M_WinDir.v
theories/M_WinFile.v
theories/M_WinFind.v
theories/M_WinLinks.v
theories/M_WinMove.v
theories/M_WinMutex.v
theories/M_WinNames.v
theories/M_WinPath.v
theories/M_WinRW.v
theories/M_WinRandom.v
theories/M_WinReal.v
theories/M_WinStat.v
theories/M_WinVolume.v
theories/P_AppInfo.v
theories/P_Append.v
theories/P_Arr2.v
theories/P_Cache.v
theories/P_ConvertInt.v
theories/P_CopyRace.v
theories/P_Dir.v
theories/P_DirRace.v
theories/P_Dll.v
theories/P_Event.v
theories/P_File.v
theories/P_Find.v
theories/P_Hash.v
theories/P_HashFn.v
theories/P_Json.v
theories/P_Kernel.v
theories/P_LibLife.v
theories/P_Life.v
theories/P_Life2.v
theories/P_Line.v
theories/P_List.v
theories/P_MacAppInfo.v
theories/P_MixedVar.v
theories/P_MkdirMode.v
theories/P_MkdirRace.v
theories/P_Mutex.v
theories/P_MutexEnd.v
theories/P_MutexFork.v
theories/P_MxProgress.v
theories/P_Name.v
theories/P_Named.v
theories/P_NamedDie.v
theories/P_NamedFork.v
theories/P_Open.v
theories/P_Packed.v
theories/P_Packed2.v
theories/P_Packed3.v
theories/P_Path.v
theories/P_Progress.v
theories/P_Queue.v
theories/P_QueueShare.v
theories/P_RW.v
theories/P_Random.v
theories/P_Replace.v
theories/P_ReplaceIn.v
theories/P_RmdirFds.v
theories/P_Sem.v
theories/P_SharedLib.v
theories/P_Tls.v
theories/P_TlsThreads.v
theories/P_TlsVar.v
theories/P_Utf8.v
theories/P_Vec.v
theories/P_Where.v
theories/P_WinAbs.v
theories/P_WinAppInfo.v
theories/P_WinDir.v
theories/P_WinFile.v
theories/P_WinLinks.v
theories/P_WinMutex.v
theories/P_WinNames.v
theories/P_WinPath.v
theories/P_WinRW.v
theories/P_WinReal.v
theories/Prop_AppInfo.v
theories/Prop_Append.v
theories/Prop_Arr2.v
theories/Prop_Attr.v
theories/Prop_Cache.v
theories/Prop_ConvertInt.v
theories/Prop_CopyRace.v
theories/Prop_Dir.v
theories/Prop_DirRace.v
theories/Prop_Event.v
theories/Prop_File.v
theories/Prop_Find.v
theories/Prop_Hash.v
theories/Prop_HashFn.v
theories/Prop_Json.v
theories/Prop_Kernel.v
theories/Prop_Layout.v
theories/Prop_LibLife.v
theories/Prop_Life.v
theories/Prop_Line.v
theories/Prop_List.v
theories/Prop_MacAppInfo.v
theories/Prop_MixedVar.v
theories/Prop_MkdirMode.v
theories/Prop_MkdirRace.v
theories/Prop_Mode.v
theories/Prop_MoveSteps.v
theories/Prop_Mutex.v
theories/Prop_MutexEnd.v
theories/Prop_MutexFork.v
theories/Prop_MxProgress.v
theories/Prop_Name.v
theories/Prop_Named.v
theories/Prop_NamedDie.v
theories/Prop_NamedFork.v
theories/Prop_Open.v
theories/Prop_Packed.v
theories/Prop_Path.v
theories/Prop_Progress.v
theories/Prop_QueueShare.v
theories/Prop_RW.v
theories/Prop_Random.v
theories/Prop_ReplaceIn.v
theories/Prop_RmdirFds.v
theories/Prop_Secret.v
theories/Prop_SelfAppend.v
theories/Prop_Sem.v
theories/Prop_SharedLib.v
theories/Prop_Time.v
theories/Prop_Tls.v
theories/Prop_TlsThreads.v
theories/Prop_TlsVar.v
theories/Prop_UserDir.v
theories/Prop_Utf8.v
theories/Prop_Vec.v
theories/Prop_Where.v
theories/Prop_WinAbs.v
theories/Prop_WinAppInfo.v
theories/Prop_WinCwd.v
theories/Prop_WinDir.v
theories/Prop_WinFile.v
theories/Prop_WinFind.v
theories/Prop_WinLinks.v
theories/Prop_WinMove.v
theories/Prop_WinMutex.v
theories/Prop_WinMxProgress.v
theories/Prop_WinNames.v
theories/Prop_WinPath.v
theories/Prop_WinRW.v
theories/Prop_WinRandom.v
theories/Prop_WinReal.v
theories/Prop_WinStat.v
theories/Prop_WinVolume.v
