-Q theories Verif
theories/M_Api.v
theories/M_Base.v
theories/M_Chacha.v
theories/M_Conc.v
theories/M_Config.v
theories/M_Fatal.v
theories/M_Flow.v
theories/M_Hist.v
theories/M_Info.v
theories/M_Libdivide.v
theories/M_Mte.v
theories/M_New.v
theories/M_OS.v
theories/M_Random.v
theories/M_Region.v
theories/M_SizeClass.v
theories/M_Slab.v
theories/M_Stats.v
theories/P_Api0.v
theories/P_Api1.v
theories/P_Api10.v
theories/P_Api2.v
theories/P_Api3.v
theories/P_Api4.v
theories/P_Api5.v
theories/P_Api6.v
theories/P_Api7.v
theories/P_Api8.v
theories/P_Api9.v
theories/P_Arena.v
theories/P_Base.v
theories/P_Bitmap.v
theories/P_Bitmap2.v
theories/P_Chacha.v
theories/P_Conc0.v
theories/P_Conc1.v
theories/P_Conc2.v
theories/P_Conc3.v
theories/P_Conc4.v
theories/P_Conc5.v
theories/P_Conc6.v
theories/P_Conc7.v
theories/P_Conf.v
theories/P_Count.v
theories/P_Demo.v
theories/P_Demo2.v
theories/P_Demo3.v
theories/P_Demo4.v
theories/P_Demo5.v
theories/P_Demo6.v
theories/P_Demo7.v
theories/P_Demo8.v
theories/P_Err.v
theories/P_Fatal.v
theories/P_Fit.v
theories/P_Flow.v
theories/P_Flow2.v
theories/P_Flow3.v
theories/P_Flow4.v
theories/P_Guard.v
theories/P_Heap1.v
theories/P_Heap10.v
theories/P_Heap11.v
theories/P_Heap2.v
theories/P_Heap3.v
theories/P_Heap4.v
theories/P_Heap5.v
theories/P_Heap6.v
theories/P_Heap7.v
theories/P_Heap8.v
theories/P_Heap9.v
theories/P_Held.v
theories/P_Info.v
theories/P_Init.v
theories/P_Keep1.v
theories/P_Keep2.v
theories/P_Keep3.v
theories/P_Leak.v
theories/P_Libdivide.v
theories/P_Libdivide2.v
theories/P_Links.v
theories/P_Mte.v
theories/P_New.v
theories/P_OS.v
theories/P_Path.v
theories/P_Quar.v
theories/P_RQuar.v
theories/P_Random.v
theories/P_Random2.v
theories/P_Random3.v
theories/P_Refute.v
theories/P_Region.v
theories/P_Region2.v
theories/P_Region3.v
theories/P_SizeClass.v
theories/P_SizeClass2.v
theories/P_Slab1.v
theories/P_Slab10.v
theories/P_Slab11.v
theories/P_Slab2.v
theories/P_Slab3.v
theories/P_Slab4.v
theories/P_Slab5.v
theories/P_Slab6.v
theories/P_Slab7.v
theories/P_Slab8.v
theories/P_Slab9.v
theories/P_Stats.v
theories/P_Stats2.v
theories/P_Stats3.v
theories/S_Arena.v
theories/S_Chacha.v
theories/S_Class.v
theories/S_Conc.v
theories/S_Err.v
theories/S_Fatal.v
theories/S_Flow.v
theories/S_Guard.v
theories/S_Heap.v
theories/S_Leak.v
theories/S_Mte.v
theories/S_New.v
theories/S_Quar.v
theories/S_Random.v
theories/S_Region.v
theories/S_SizeClass.v
theories/S_Slab.v
theories/S_Stats.v
theories/S_Xml.v
theories/T_C01.v
theories/T_C02.v
theories/T_C03.v
theories/T_C04.v
theories/T_C05.v
theories/T_C06.v
theories/T_C07.v
theories/T_C08.v
theories/T_C09.v
theories/T_C10.v
theories/T_C11.v
theories/T_C12.v
theories/T_C13.v
theories/T_C14.v
theories/T_C15.v
theories/T_C16.v
theories/T_C17.v
theories/T_C18.v
theories/T_C19.v
theories/T_C20.v
theories/T_C21.v
theories/T_C22.v
theories/T_C23.v
theories/T_C24.v
theories/T_C25.v
theories/T_C26.v
theories/T_C27.v
theories/T_C28.v
theories/T_C29.v
theories/T_C30.v
theories/T_C31.v
theories/T_C32.v
theories/T_C33.v
theories/T_C34.v
theories/T_C35.v
theories/T_C36.v
theories/T_C37.v
theories/T_C38.v
theories/T_C39.v
theories/T_C40.v
theories/T_C41.v
theories/T_C42.v
theories/T_C43.v
theories/T_C44.v
theories/T_C45.v
theories/T_C46.v
theories/T_C47.v
theories/T_C48.v
theories/T_C49.v
theories/T_C50.v
theories/T_C51.v
theories/T_C52.v
