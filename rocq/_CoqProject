-Q theories Verif
theories/Py.v
theories/Num.v
theories/Dim.v
theories/DimFacts.v
theories/Arr.v
theories/Units.v
theories/Spec.v
theories/UnitFacts.v
theories/Quant.v
theories/QuantFacts.v
theories/SimpFacts.v
theories/Hash.v
theories/Examples.v
theories/Props_Dim.v
theories/SpecApi.v
theories/ConvFacts.v
theories/Defaults.v
theories/DefaultsFacts.v
theories/Dtype.v
theories/Props_Conv.v
theories/ArrFacts.v
theories/Ufunc.v
theories/Ops.v
theories/OpsFacts.v
theories/Props_Ops.v
theories/Props_Ufunc.v
theories/Lanes.v
theories/Methods.v
theories/MethodsFacts.v
theories/ItemFacts.v
theories/Props_Methods.v
theories/Complex.v
theories/Props_Complex.v
theories/Methods2.v
theories/Props_Methods2.v
theories/Program.v
theories/Props_Program.v
theories/Props_Static.v
theories/Nan.v
theories/Props_Nan.v
theories/Umath.v
theories/UmathFacts.v
theories/Props_Umath.v
theories/Heap.v
theories/HeapFacts.v
theories/HeapDims.v
theories/Props_Heap.v
theories/Text.v
theories/Markup.v
theories/Lex.v
theories/Registry.v
theories/RegFacts.v
theories/LexFacts.v
theories/PrintFacts.v
theories/RoundTrip.v
theories/PrintEq.v
theories/Render.v
theories/RegEq.v
theories/Props_Registry.v
theories/SpecGrammar.v
theories/GrammarFacts.v
theories/LabelFacts.v
theories/Props_Grammar.v
theories/Preferred.v
theories/Props_Preferred.v
theories/Uncert.v
theories/SpecUncert.v
theories/UncertFacts.v
theories/Props_Uncert.v
theories/UncertNan.v
theories/Props_UncertNan.v
theories/Show.v
theories/Props_Show.v
theories/Decor.v
theories/Props_Decor.v
theories/Pickle.v
theories/SpecPickle.v
theories/PickleFacts.v
theories/HistFacts.v
theories/Props_Pickle.v
theories/Props_Labels.v
theories/Sched.v
theories/SchedFacts.v
theories/Props_Sched.v
theories/Props_Crash.v
theories/Table.v
theories/Import.v
theories/TableFacts.v
theories/SpecSizes.v
theories/Props_Table.v
theories/Props_System.v
theories/Props_Library.v
theories/Constants.v
theories/Kimport.v
theories/SpecConstants.v
theories/KFacts.v
theories/Props_Const.v
theories/Float.v
theories/SpecFloat.v
theories/FloatFacts.v
theories/LibFloat.v
theories/Props_Float.v
theories/Double.v
theories/SpecDouble.v
theories/DoubleFacts.v
theories/LibDouble.v
theories/Props_Double.v
theories/Props_Double2.v
theories/Props_Double3.v
theories/Props_Double4.v
theories/Props_Threads.v
theories/Props_Uncert2.v
theories/Props_Memo.v
