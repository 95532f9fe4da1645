-Q theories Verif
theories/Base.v
theories/Dec.v
theories/Num.v
theories/NumSpec.v
theories/Lex.v
theories/LexSpec.v
theories/BaseProofs.v
theories/DecProofs.v
theories/NumProofs.v
theories/LexProofs.v
theories/NumProofs2.v
theories/NumProofs3.v
theories/NumProofs4.v
theories/Prop_Numbers.v
theories/Bases.v
theories/BasesSpec.v
theories/BasesProofs.v
theories/BasesProofs2.v
theories/BasesProofs3.v
theories/BasesProofs4.v
theories/Prop_Bases.v
theories/Units.v
theories/UnitsSpec.v
theories/UnitsProofs.v
theories/UnitsProofs2.v
theories/UnitsProofs3.v
theories/UnitsProofs4.v
theories/UnitsProofs5.v
theories/Prop_Units.v
theories/Install.v
theories/InstallSpec.v
theories/InstallProofs.v
theories/InstallProofs2.v
theories/Prop_Install.v
theories/Syntax.v
theories/Pos.v
theories/PosSpec.v
theories/PosProofs.v
theories/Prop_Pos.v
theories/Call.v
theories/CallSpec.v
theories/CallProofs.v
theories/Prop_Call.v
theories/Loop.v
theories/LoopSpec.v
theories/LoopProofs.v
theories/Prop_Loop.v
theories/Parse.v
theories/ParseSpec.v
theories/ParseProofs.v
theories/ParseProofs2.v
theories/Prop_Parse.v
theories/Exec.v
theories/ExecSpec.v
theories/ExecProofs.v
theories/ExecProofs2.v
theories/ExecProofs3.v
theories/ExecProofs4.v
theories/ExecProofs5.v
theories/ExecProofs6.v
theories/Formats.v
theories/Std.v
theories/StdRun.v
theories/Prop_Exec.v
theories/StdSpec.v
theories/StdProofs.v
theories/StdProofs2.v
theories/StdProofs3.v
theories/StdProofs4.v
theories/Prop_State.v
theories/StdProofs5.v
theories/StdProofs6.v
theories/StdProofs7.v
theories/StdProofs8.v
theories/Prop_Std.v
theories/StdProofs9.v
theories/StdProofs10.v
theories/Prop_Ints.v
theories/RangeSpec.v
theories/RangeProofs.v
theories/Prop_Range.v
theories/StatSpec.v
theories/StatProofs.v
theories/Prop_Stat.v
theories/TextSpec.v
theories/TextProofs.v
theories/Prop_Text.v
theories/ArithSpec.v
theories/ArithProofs.v
theories/Prop_Arith.v
theories/RoundSpec.v
theories/RoundProofs.v
theories/Prop_Round.v
theories/UnitReg.v
theories/UnitData.v
theories/UnitCalc.v
theories/UnitRun.v
theories/UnitTests.v
theories/UnitCalcSpec.v
theories/UnitCalcProofs.v
theories/UnitCalcProofs2.v
theories/UnitTable.v
theories/Prop_Quantities.v
theories/UnitCalcProofs3.v
theories/Prop_Products.v
theories/Prop_Convert.v
theories/Prop_UnitAlgebra.v
theories/ErrorSpec.v
theories/CompleteProofs.v
theories/ErrorProofs.v
theories/ErrorProofs2.v
theories/ErrorProofs3.v
theories/ErrorProofs4.v
theories/Prop_Errors.v
theories/NameSpec.v
theories/NameProofs.v
theories/Prop_Names.v
theories/Dates.v
theories/DateRun.v
theories/DateSpec.v
theories/DateProofs.v
theories/DateProofs2.v
theories/DateProofs3.v
theories/Prop_Dates.v
theories/DateTests.v
theories/SimplifySpec.v
theories/SimplifyProofs.v
theories/DedupeProofs.v
theories/EndlessProofs.v
theories/EndProofs.v
theories/ChoiceProofs.v
theories/Prop_Simplify.v
theories/ContainSpec.v
theories/ContainProofs.v
theories/ContainProofs2.v
theories/ContainProofs3.v
theories/ContainProofs4.v
theories/ContainProofs5.v
theories/ContainProofs6.v
theories/ContainProofs7.v
theories/PartsSpec.v
theories/PartsProofs.v
theories/PartsProofs2.v
theories/Prop_Parts.v
theories/HumanSpec.v
theories/HumanProofs.v
theories/Prop_Human.v
theories/GatherSpec.v
theories/GatherProofs.v
theories/Prop_Gather.v
theories/Regex.v
theories/RegexSpec.v
theories/RegexRun.v
theories/RegexProofs.v
theories/Prop_Regex.v
theories/ContainSpec2.v
theories/ContainProofs8.v
theories/ContainProofs9.v
theories/Prop_Contain.v
theories/RegexTests.v
theories/DefinitionSpec.v
theories/DefinitionProofs.v
theories/Prop_Definitions.v
theories/Floats.v
theories/FloatSpec.v
theories/FloatProofs.v
theories/Prop_Floats.v
theories/FormatSpec.v
theories/SciProofs.v
theories/FormatProofs.v
theories/FormatProofs2.v
theories/Prop_Formats.v
theories/VarNameSpec.v
theories/VarNameProofs.v
theories/Prop_VarNames.v
theories/Prop_FormatFuncs.v
theories/ParamSpec.v
theories/ParamProofs.v
theories/Prop_Params.v
theories/Heap.v
theories/HeapSpec.v
theories/HeapProofs.v
theories/HeapProofs2.v
theories/Prop_Heap.v
theories/ArithTextSpec.v
theories/ArithRunSpec.v
theories/ArithTextProofs.v
theories/ArithTextProofs2.v
theories/ArrayTextSpec.v
theories/ArithTextProofs3.v
theories/ArithTextProofs4.v
theories/ArithFunProofs.v
theories/ArithTextProofs5.v
theories/ArithTextProofs6.v
theories/ArithTextProofs7.v
theories/Prop_ArithText.v
theories/InstallRun.v
theories/InstallRunSpec.v
theories/InstallRunProofs.v
theories/InstallRunProofs2.v
theories/InstallRunProofs3.v
theories/InstallRunProofs4.v
theories/InstallBuiltSpec.v
theories/InstallBuilt.v
theories/Prop_InstallRun.v
theories/ArithErrSpec.v
theories/ArithErrProofs.v
theories/ArithErrProofs2.v
theories/ArithErrFun.v
theories/ArithErrProofs3.v
theories/ArithErrProofs4.v
theories/Prop_ArithErr.v
theories/UnitTextSpec.v
theories/UnitTextProofs.v
theories/UnitTextProofs2.v
theories/UnitTextProofs3.v
theories/UnitTextProofs4.v
theories/UnitTextProofs5.v
theories/UnitTextTable.v
theories/Prop_UnitText.v
theories/DateTextSpec.v
theories/DateTextProofs.v
theories/DateTextProofs2.v
theories/DateTextProofs3.v
theories/Prop_DateText.v
theories/Prop_ArithShown.v
theories/CondTextSpec.v
theories/CondTextProofs.v
theories/LoopWalls.v
theories/ChoiceLoopProofs.v
theories/CondLoopProofs.v
theories/CondTextProofs2.v
theories/Prop_CondText.v
theories/ChoiceTextSpec.v
theories/ChoiceTextProofs.v
theories/ChoiceTextProofs2.v
theories/Prop_ChoiceText.v
theories/ChoiceLineComplete.v
theories/ChoiceLineSpec.v
theories/ChoiceLineParse.v
theories/ChoiceLineRun.v
theories/ChoiceLineProofs.v
theories/Prop_ChoiceLine.v
theories/ArrayRunSpec.v
theories/ArrayTextProofs.v
theories/ArrayTextProofs2.v
theories/Prop_ArrayText.v
theories/ArrayCallSpec.v
theories/ArrayCallProofs.v
theories/Prop_ArrayCall.v
theories/ArrayErrSpec.v
theories/ArrayErrProofs.v
theories/Prop_ArrayErr.v
theories/ArrayCallProofs2.v
theories/Prop_ArrayCall2.v
theories/Prop_Types.v
theories/ArrayErrProofs2.v
theories/Prop_ArrayErr2.v
theories/StdTests.v
