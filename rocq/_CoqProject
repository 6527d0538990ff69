-Q theories Verif
theories/Base.v
theories/Dict.v
theories/L_Classes.v
theories/L_Conditions.v
theories/L_Config.v
theories/L_ConfigTree.v
theories/L_Conform.v
theories/L_Context.v
theories/L_Csv.v
theories/L_Curve.v
theories/L_Default.v
theories/L_Disturb.v
theories/L_Estimate.v
theories/L_Fields.v
theories/L_Float.v
theories/L_Flow.v
theories/L_Formulation.v
theories/L_Gram.v
theories/L_Header.v
theories/L_Heap.v
theories/L_IO.v
theories/L_Linear.v
theories/L_Load.v
theories/L_Nested.v
theories/L_Newton.v
theories/L_Omesh.v
theories/L_Path.v
theories/L_Project.v
theories/L_Pseudo.v
theories/L_Rate.v
theories/L_Registry.v
theories/L_Repr.v
theories/L_Restart.v
theories/L_RoundTrip.v
theories/L_Run.v
theories/L_Scheme.v
theories/L_SchemeR.v
theories/L_Setup.v
theories/L_Small.v
theories/L_Solve.v
theories/L_Store.v
theories/L_Stream.v
theories/L_Timer.v
theories/L_Turn.v
theories/L_Turn2.v
theories/L_Units.v
theories/L_Valid.v
theories/L_Weak.v
theories/M_Bla.v
theories/M_Buffer.v
theories/M_Classes.v
theories/M_Condense.v
theories/M_Conditions.v
theories/M_Config.v
theories/M_Context.v
theories/M_Csv.v
theories/M_Cylinder.v
theories/M_Fields.v
theories/M_Files.v
theories/M_Float.v
theories/M_Flow.v
theories/M_Formulation.v
theories/M_Header.v
theories/M_Heap.v
theories/M_IO.v
theories/M_Layers.v
theories/M_March.v
theories/M_Mixed.v
theories/M_Omesh.v
theories/M_Path.v
theories/M_Project.v
theories/M_Pseudo.v
theories/M_Regions.v
theories/M_Registered.v
theories/M_Registry.v
theories/M_Reruns.v
theories/M_Restart.v
theories/M_Run.v
theories/M_Scheme.v
theories/M_Sensor.v
theories/M_Setup.v
theories/M_Show.v
theories/M_Solve.v
theories/M_Stream.v
theories/M_Timer.v
theories/M_Viscous.v
theories/M_Weak.v
theories/P_Bla.v
theories/P_Boundary.v
theories/P_Buffer.v
theories/P_Cbc.v
theories/P_Chars.v
theories/P_Condense.v
theories/P_Conditions.v
theories/P_Config.v
theories/P_Contact.v
theories/P_Context.v
theories/P_Csv.v
theories/P_Cylinder.v
theories/P_Eos.v
theories/P_Extrude.v
theories/P_Fields.v
theories/P_Files.v
theories/P_Float.v
theories/P_Forces.v
theories/P_Gradients.v
theories/P_IO.v
theories/P_Initial.v
theories/P_Jacobian.v
theories/P_Layers.v
theories/P_March.v
theories/P_Mirror.v
theories/P_Mirror2.v
theories/P_Mirror3.v
theories/P_Mixed.v
theories/P_Newton.v
theories/P_Omesh.v
theories/P_Options.v
theories/P_Periods.v
theories/P_Positive.v
theories/P_Project.v
theories/P_Pseudo.v
theories/P_Regions.v
theories/P_Registered.v
theories/P_Registry.v
theories/P_Reruns.v
theories/P_Restart.v
theories/P_Riemann.v
theories/P_Scaling.v
theories/P_Scheme.v
theories/P_Sensor.v
theories/P_Setup.v
theories/P_Show.v
theories/P_Small.v
theories/P_Solve.v
theories/P_Split.v
theories/P_Sponge.v
theories/P_Sponge2.v
theories/P_Streams.v
theories/P_Stress.v
theories/P_Stretch.v
theories/P_Timer.v
theories/P_Trace.v
theories/P_Turn.v
theories/P_Turn2.v
theories/P_Turn3.v
theories/P_Turn4.v
theories/P_Uniform.v
theories/P_Units.v
theories/P_Units2.v
theories/P_Units3.v
theories/P_Units4.v
theories/P_Unknowns.v
theories/P_Update.v
theories/P_Viscous.v
theories/P_Walls.v
theories/P_Waves.v
theories/P_Weak.v
theories/S_Chars.v
theories/S_Condense.v
theories/S_Conditions.v
theories/S_Config.v
theories/S_Contact.v
theories/S_Context.v
theories/S_Csv.v
theories/S_Cylinder.v
theories/S_Extrude.v
theories/S_Fields.v
theories/S_Files.v
theories/S_Float.v
theories/S_Flow.v
theories/S_Forces.v
theories/S_Formulation.v
theories/S_Header.v
theories/S_Heap.v
theories/S_IO.v
theories/S_March.v
theories/S_Mirror.v
theories/S_Mixed.v
theories/S_Newton.v
theories/S_Omesh.v
theories/S_Options.v
theories/S_Path.v
theories/S_Periods.v
theories/S_Positive.v
theories/S_Project.v
theories/S_Pseudo.v
theories/S_Regions.v
theories/S_Registered.v
theories/S_Registry.v
theories/S_Restart.v
theories/S_Run.v
theories/S_Scaling.v
theories/S_Scheme.v
theories/S_Sensor.v
theories/S_Setup.v
theories/S_Show.v
theories/S_Small.v
theories/S_Solve.v
theories/S_Sponge.v
theories/S_Stream.v
theories/S_Stress.v
theories/S_Timer.v
theories/S_Trace.v
theories/S_Turn.v
theories/S_Units.v
theories/S_Viscous.v
theories/S_Weak.v
