-Q theories Verif
theories/M_Base.v
theories/M_Tables.v
theories/S_Tracking.v
theories/L_Base.v
theories/L_Tables.v
theories/L_Track.v
theories/L_Step.v
theories/L_Run.v
theories/L_Run2.v
theories/L_TrackProps.v
theories/L_Witness.v
theories/P_Tracking.v
theories/S_Levels.v
theories/L_Levels.v
theories/L_Levels2.v
theories/L_Levels3.v
theories/L_Levels4.v
theories/L_Levels5.v
theories/P_Levels.v
theories/M_Store.v
theories/L_Store.v
theories/P_Store.v
theories/M_Area.v
theories/M_Eddy.v
theories/M_Detect.v
theories/S_Detect.v
theories/L_Eddy.v
theories/L_Detect.v
theories/L_Detect2.v
theories/L_Detect3.v
theories/L_Detect4.v
theories/P_Detect.v
theories/M_Window.v
theories/S_Window.v
theories/M_Pipeline.v
theories/S_Pipeline.v
theories/S_Process.v
theories/S_Double.v
theories/L_Window.v
theories/L_Window2.v
theories/L_Window3.v
theories/L_Window4.v
theories/L_Window5.v
theories/P_Window.v
theories/M_Frechet.v
theories/S_Frechet.v
theories/L_Frechet.v
theories/L_Frechet2.v
theories/L_Frechet3.v
theories/P_Frechet.v
theories/M_Gauss.v
theories/S_Gauss.v
theories/L_Gauss.v
theories/P_Gauss.v
theories/M_Ellipse.v
theories/S_Ellipse.v
theories/L_Ellipse.v
theories/L_Ellipse2.v
theories/L_Ellipse3.v
theories/L_Ellipse4.v
theories/P_Ellipse.v
theories/M_AreaR.v
theories/S_Area.v
theories/L_Area.v
theories/L_Area2.v
theories/P_Area.v
theories/M_Filter.v
theories/S_Filter.v
theories/L_Filter.v
theories/P_Filter.v
theories/M_Coords.v
theories/S_Coords.v
theories/L_Coords.v
theories/P_Coords.v
theories/M_Printer.v
theories/L_Printer.v
theories/P_Printer.v
theories/M_Plot.v
theories/P_Plot.v
theories/M_Generator.v
theories/S_Generator.v
theories/L_Generator.v
theories/P_Generator.v
theories/M_Cntr.v
theories/L_Cntr1.v
theories/L_Cntr2.v
theories/L_Cntr3.v
theories/L_Cntr4.v
theories/L_Cntr5.v
theories/L_Cntr6.v
theories/L_Cntr7.v
theories/L_Cntr8.v
theories/L_Cntr10.v
theories/L_Cntr9.v
theories/S_Cntr.v
theories/L_Cntr11.v
theories/M_Extract.v
theories/L_Extract.v
theories/L_Cntr12.v
theories/P_Cntr.v
theories/L_Pipeline.v
theories/P_Pipeline.v
theories/P_Process.v
theories/L_Double.v
theories/P_Double.v
theories/M_FrechetFloat.v
theories/S_FrechetFloat.v
theories/L_FrechetFloat.v
theories/L_FrechetFloat2.v
theories/P_FrechetFloat.v
theories/L_Generator2.v
theories/P_Generator2.v
theories/S_Motion.v
theories/L_Motion.v
theories/P_Motion.v
theories/S_Area2.v
theories/L_Area3.v
theories/P_Area2.v
theories/M_Crash.v
theories/S_Crash.v
theories/P_Crash.v
theories/S_Lines.v
theories/L_Lines.v
theories/P_Lines.v
theories/M_Arguments.v
theories/P_Levels2.v
theories/M_Figures.v
theories/P_Figures.v
theories/S_Lines2.v
theories/P_Lines2.v
theories/S_Border.v
theories/P_Border.v
theories/S_Cross.v
theories/L_Cross.v
theories/L_Cross2.v
theories/P_Cross.v
theories/P_Small.v
theories/S_Turn.v
theories/L_Turn.v
theories/P_Turn.v
theories/S_Ring.v
theories/L_Ring.v
theories/P_Ring.v
theories/S_Enclose.v
theories/L_Loop.v
theories/P_Enclose.v
theories/L_Nest.v
theories/P_Nest.v
theories/S_Hill.v
theories/L_Hill.v
theories/P_Hill.v
theories/P_Hill2.v
theories/S_Inside.v
theories/P_Inside.v
theories/S_Peak.v
theories/P_Peak.v
theories/S_Seam.v
theories/P_Seam.v
theories/S_Convention.v
theories/P_Convention.v
theories/L_Columns.v
theories/S_Units.v
theories/L_Units.v
theories/P_Units.v
theories/S_Reverse.v
theories/P_Reverse.v
theories/S_Turned.v
theories/P_Turned.v
theories/S_Start.v
theories/P_Start.v
theories/M_MaskFloat.v
theories/S_MaskFloat.v
theories/P_MaskFloat.v
theories/S_Strict.v
theories/P_Strict.v
theories/S_Skip.v
theories/P_Skip.v
theories/S_Backwards.v
theories/P_Backwards.v
theories/S_Length.v
theories/P_Length.v
theories/P_Similar.v
theories/S_Region.v
theories/P_Region.v
theories/S_Noise.v
theories/P_Noise.v
theories/S_Shape.v
theories/P_Shape.v
theories/S_Inexact.v
theories/P_Inexact.v
theories/P_NoiseLoop.v
theories/P_NoisyPeak.v
theories/S_Hills.v
theories/P_Hills.v
theories/S_Hills2.v
theories/P_Hills2.v
theories/P_Given.v
theories/P_Values.v
