-Q theories Verif
theories/Base.v
theories/M_Slots.v
theories/P_Slots.v
theories/T_Slots.v
theories/M_Sched.v
theories/P_Booking.v
theories/P_Book.v
theories/P_Book2.v
theories/P_Book3.v
theories/T_Booking.v
theories/M_Genetic.v
theories/P_Genetic.v
theories/P_Genetic2.v
theories/P_Genetic3.v
theories/P_GenEx.v
theories/T_Genetic.v
theories/P_Budget.v
theories/T_Budget.v
theories/M_Extend.v
theories/M_Shift.v
theories/P_Extend.v
theories/P_Shift.v
theories/P_Session.v
theories/P_ExtEx.v
theories/T_Extend.v
theories/T_Shift.v
theories/M_Cnst.v
theories/P_Cnst.v
theories/P_Cnst2.v
theories/P_Cnst3.v
theories/P_Cnst4.v
theories/T_Cnst.v
theories/M_Blocks.v
theories/P_Blocks.v
theories/P_Blocks2.v
theories/P_Insert.v
theories/M_Export.v
theories/P_Export.v
theories/T_Blocks.v
theories/T_Export.v
theories/M_Evolve.v
theories/P_Evolve.v
theories/P_Evolve2.v
theories/P_Evolve3.v
theories/T_Evolve.v
theories/M_Nd.v
theories/P_Nd.v
theories/M_Rebin.v
theories/P_Rebin.v
theories/P_Rebin2.v
theories/P_Rebin3.v
theories/T_Rebin.v
theories/M_Cond.v
theories/P_Cond.v
theories/P_Cond2.v
theories/T_Cond.v
theories/M_TFArray.v
theories/P_TFArray.v
theories/P_TFArray2.v
theories/P_Flatten.v
theories/T_TFArray.v
theories/M_Polar.v
theories/P_Polar.v
theories/P_Polar2.v
theories/T_Polar.v
theories/M_Dedisperse.v
theories/P_Dedisperse.v
theories/P_Dedisperse2.v
theories/T_Dedisperse.v
theories/M_Pipeline.v
theories/P_Pipeline.v
theories/P_Pipeline2.v
theories/M_PipeTasks.v
theories/P_PipeTasks.v
theories/T_Pipeline.v
theories/M_Select.v
theories/P_Select.v
theories/P_Select2.v
theories/P_Select3.v
theories/T_Select.v
theories/M_SData.v
theories/P_SData.v
theories/P_SData2.v
theories/T_SData.v
theories/M_Xst.v
theories/P_Xst.v
theories/P_Xst2.v
theories/P_Xst3.v
theories/P_Xst4.v
theories/P_Xst5.v
theories/P_Xst6.v
theories/T_Xst.v
theories/M_PText.v
theories/M_POptions.v
theories/M_Parset.v
theories/P_PText.v
theories/P_PValue.v
theories/P_Parset.v
theories/P_Parset2.v
theories/P_Parset3.v
theories/P_PFile.v
theories/P_PLoad.v
theories/P_PLoad2.v
theories/P_PLoad3.v
theories/P_PValid.v
theories/T_Parset.v
theories/M_Subbands.v
theories/P_Subbands.v
theories/T_Subbands.v
theories/M_Instru.v
theories/P_Instru.v
theories/P_Instru2.v
theories/P_Instru3.v
theories/T_Instru.v
theories/M_Analog.v
theories/P_Analog.v
theories/P_Analog2.v
theories/T_Analog.v
theories/M_Pointing.v
theories/P_Pointing.v
theories/P_Pointing2.v
theories/P_Pointing3.v
theories/T_Pointing.v
theories/M_Beam.v
theories/P_Beam.v
theories/P_Beam2.v
theories/P_Beam3.v
theories/T_Beam.v
theories/M_Jones.v
theories/P_Jones.v
theories/P_Jones2.v
theories/P_Jones3.v
theories/P_Jones4.v
theories/T_Jones.v
theories/M_Area.v
theories/P_Area.v
theories/P_Area2.v
theories/P_Area3.v
theories/P_Area4.v
theories/T_Area.v
theories/M_Sefd.v
theories/P_Sefd.v
theories/P_Sefd2.v
theories/P_Sefd3.v
theories/T_Sefd.v
theories/M_Crossing.v
theories/P_Crossing.v
theories/P_Crossing2.v
theories/P_Crossing3.v
theories/T_Crossing.v
theories/M_Config.v
theories/P_Config.v
theories/P_Config2.v
theories/P_Config3.v
theories/P_Config4.v
theories/P_Config5.v
theories/P_Config6.v
theories/P_Config7.v
theories/T_Config.v
theories/M_Lane.v
theories/P_Lane.v
theories/T_Lane.v
theories/M_Dynspec.v
theories/P_Dynspec.v
theories/P_Dynspec2.v
theories/T_Dynspec.v
theories/M_Dynproc.v
theories/P_Dynproc.v
theories/P_Dynproc2.v
theories/P_Dynproc3.v
theories/P_Dynproc4.v
theories/T_Dynproc.v
theories/M_Dream.v
theories/P_Dream.v
theories/P_Dream2.v
theories/P_Dream3.v
theories/T_Dream.v
theories/M_Slice.v
theories/P_Slice.v
theories/P_Slice2.v
theories/P_Slice3.v
theories/P_Slice4.v
theories/T_Slice.v
theories/M_Uvw.v
theories/P_Uvw.v
theories/P_Uvw2.v
theories/P_Uvw3.v
theories/P_Uvw4.v
theories/P_Uvw5.v
theories/P_Uvw6.v
theories/P_Uvw7.v
theories/T_Uvw.v
theories/M_Night.v
theories/P_Night.v
theories/P_Night2.v
theories/T_Night.v
theories/M_Open.v
theories/P_Open.v
theories/P_Open2.v
theories/P_Open3.v
theories/T_Open.v
theories/M_Lobes.v
theories/P_Lobes.v
theories/P_Lobes2.v
theories/T_Lobes.v
theories/M_Bandpass.v
theories/P_Bandpass.v
theories/P_Bandpass2.v
theories/T_Bandpass.v
theories/M_Rfi.v
theories/P_Rfi.v
theories/P_Rfi2.v
theories/T_Rfi.v
theories/M_Json.v
theories/P_Json.v
theories/P_Json2.v
theories/P_Json3.v
theories/P_Json4.v
theories/P_Json5.v
theories/T_Json.v
theories/M_Sky.v
theories/P_Sky.v
theories/P_Sky2.v
theories/P_Sky3.v
theories/T_Sky.v
theories/M_Skymap.v
theories/P_Skymap.v
theories/P_Skymap2.v
theories/T_Skymap.v
theories/M_Gsm.v
theories/P_Gsm.v
theories/T_Gsm.v
theories/M_Tools.v
theories/P_Tools.v
theories/P_Tools2.v
theories/T_Tools.v
theories/M_Antenna.v
theories/P_Antenna.v
theories/P_Antenna2.v
theories/P_Antenna3.v
theories/P_Antenna4.v
theories/T_Antenna.v
theories/M_Bst.v
theories/P_Bst.v
theories/T_Bst.v
theories/M_Replay.v
theories/P_Replay.v
theories/P_Replay2.v
theories/P_Replay3.v
theories/P_Replay4.v
theories/T_Replay.v
theories/M_Tap.v
theories/P_Tap.v
theories/T_Tap.v
theories/M_Reduced.v
theories/P_Reduced.v
theories/P_Reduced2.v
theories/P_Reduced3.v
theories/T_Reduced.v
theories/M_Horizon.v
theories/P_Horizon.v
theories/P_Horizon2.v
theories/T_Horizon.v
theories/M_Share.v
theories/P_Share.v
theories/T_Share.v
theories/P_Reduced4.v
theories/M_Calfile.v
theories/P_Calfile.v
theories/T_Calfile.v
theories/M_Sst.v
theories/P_Sst.v
theories/T_Sst.v
theories/M_Profile.v
theories/P_Profile.v
theories/T_Profile.v
theories/M_Ranges.v
theories/P_Ranges.v
theories/T_Ranges.v
theories/M_Cumul.v
theories/P_Cumul.v
theories/T_Cumul.v
theories/M_Workbook.v
theories/P_Workbook.v
theories/T_Workbook.v
theories/M_Corrtasks.v
theories/P_Corrtasks.v
theories/T_Corrtasks.v
theories/M_Smooth.v
theories/P_Smooth.v
theories/T_Smooth.v
theories/M_Jonescal.v
theories/P_Jonescal.v
theories/T_Jonescal.v
theories/M_Localzone.v
theories/P_Localzone.v
theories/T_Localzone.v
