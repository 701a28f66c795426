-Q theories Verif
theories/Spec_Py.v
theories/Lib_Py.v
theories/Model_Graph.v
theories/Proofs_Graph.v
theories/Proofs_Setup.v
theories/Proofs_SetupData.v
theories/Spec_Flow.v
theories/Proofs_Build.v
theories/Proofs_GraphApi.v
theories/Model_Connect.v
theories/Proofs_Connect.v
theories/Prop_Graph.v
theories/Model_MP.v
theories/Spec_MP.v
theories/Proofs_MP.v
theories/Prop_MP.v
theories/Spec_Comp.v
theories/Lib_R.v
theories/Model_Split.v
theories/Proofs_Split.v
theories/Model_Shaft.v
theories/Model_Flow.v
theories/Proofs_Flow.v
theories/Proofs_Shaft.v
theories/Prop_Elem1.v
theories/Model_Turbo.v
theories/Lib_Loop.v
theories/Proofs_Turbo.v
theories/Proofs_TurboLoop.v
theories/Prop_Turbo.v
theories/Model_Nozzle.v
theories/Model_Cooling.v
theories/Proofs_Nozzle.v
theories/Proofs_Cooling.v
theories/Prop_Elem2.v
theories/Model_Species.v
theories/Data_Thermo.v
theories/Proofs_Species.v
theories/Prop_Species.v
theories/Spec_Mix.v
theories/Model_ThermoAdd.v
theories/Proofs_ThermoAdd.v
theories/Prop_Mix.v
theories/Model_Static.v
theories/Proofs_Static.v
theories/Prop_Static.v
theories/Model_Equil.v
theories/Proofs_Equil.v
theories/Proofs_Props.v
theories/Proofs_Thermo.v
theories/Prop_Equil.v
theories/Spec_Wire.v
theories/Model_Thermo.v
theories/Proofs_Wire.v
theories/Prop_Thermo.v
theories/Model_Ports.v
theories/Prop_Ports.v
theories/Model_Misc.v
theories/Prop_Misc.v
theories/Data_Atm.v
theories/Model_Atm.v
theories/Proofs_Atm.v
theories/Prop_Atm.v
theories/Data_Maps.v
theories/Model_Maps.v
theories/Prop_Data.v
theories/Model_Elem1.v
theories/Proofs_Elem.v
theories/Proofs_Elem2.v
theories/Proofs_ElemEx.v
theories/Prop_Station.v
theories/Prop_Station2.v
theories/Prop_Station3.v
theories/Prop_StationEx.v
theories/Model_Elem2.v
theories/Proofs_Elem3.v
theories/Prop_Station4.v
theories/Prop_Station5.v
theories/Prop_Station6.v
theories/Prop_Station7.v
theories/Prop_Station8.v
theories/Proofs_ElemEx2.v
theories/Prop_StationEx2.v
theories/Proofs_OD.v
theories/Prop_OD.v
theories/Prop_Map.v
theories/Prop_OD2.v
theories/Prop_OD3.v
theories/Prop_OD4.v
theories/Model_Cycle.v
theories/Prop_Cycle.v
theories/Prop_Cycle2.v
theories/Prop_Const.v
theories/Prop_Units.v
theories/Model_Cea.v
theories/Proofs_Cea.v
theories/Proofs_Stable.v
theories/Prop_Cea.v
theories/Prop_Cea2.v
theories/Proofs_Poly.v
theories/Prop_Shipped.v
theories/Proofs_Ln.v
theories/Proofs_Cross.v
theories/Prop_Shipped2.v
theories/Prop_ShippedEx.v
theories/Prop_Elements.v
theories/Prop_Elements2.v
theories/Prop_ElementsEx.v
theories/Model_Stations.v
theories/Prop_Stations.v
theories/Model_Examples.v
theories/Data_Examples.v
theories/Prop_Examples.v
theories/Prop_Examples2.v
theories/Prop_Examples3.v
theories/Prop_ExamplesEx.v
theories/Model_Multi.v
theories/Data_Multi.v
theories/Proofs_Multi.v
theories/Prop_OD5.v
theories/Prop_Multi.v
theories/Prop_MultiEx.v
theories/Model_Tab.v
theories/Proofs_Tab.v
theories/Prop_Tab.v
theories/Model_Hist.v
theories/Prop_Hist.v
theories/Prop_CycleSetup.v
theories/Prop_Humid.v
theories/Prop_CycleSetup2.v
theories/Proofs_WetEx.v
theories/Prop_CycleSetupEx.v
theories/Model_Viewers.v
theories/Prop_Viewers.v
theories/Prop_Viewers2.v
theories/Prop_Viewers3.v
theories/Prop_ViewersEx.v
theories/Model_CoreEff.v
theories/Prop_CoreEff.v
theories/Prop_CoreEff2.v
theories/Prop_CoreEff3.v
theories/Prop_CoreEffEx.v
theories/Model_TabGen.v
theories/Prop_TabGen.v
theories/Prop_TabGenEx.v
theories/Prop_Atm2.v
theories/Data_MapsN3.v
theories/Prop_Maps2.v
theories/Prop_Second.v
theories/Prop_Second2.v
theories/Prop_SecondEx.v
theories/Prop_SecondEx2.v
theories/Prop_SecondEx3.v
theories/Prop_Second3.v
theories/Prop_CoreEff5.v
