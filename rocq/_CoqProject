-Q theories Verif
theories/PyBase.v
theories/PyDict.v
theories/Digits.v
theories/JsonModel.v
theories/JsonProofs.v
theories/JsonSpec.v
theories/JsonGrammar.v
theories/MsgBase.v
theories/MsgTables.v
theories/MsgModel.v
theories/TruthSpec.v
theories/IntSpec.v
theories/HeaderSpec.v
theories/MsgSpec.v
theories/MsgProofs.v
theories/MsgProofs2.v
theories/MsgProofs3.v
theories/MsgProofs4.v
theories/MsgProps.v
theories/AdapterModel.v
theories/AdapterProofs.v
theories/AdapterSpec.v
theories/AdapterProofs2.v
theories/IntProofs.v
theories/HeaderProofs.v
theories/AdapterProps.v
theories/DbgTypes.v
theories/BpModel.v
theories/BpSpec.v
theories/BpProofs.v
theories/BpProofs2.v
theories/BpProofs3.v
theories/BpProps.v
theories/ThreadModel.v
theories/StratModel.v
theories/ThreadSpec.v
theories/ThreadProps.v
theories/SysModel.v
theories/SysSpec.v
theories/SysDemo.v
theories/SysProofs.v
theories/SysProofs2.v
theories/SysProofs3.v
theories/SysProofs4.v
theories/SysProofs5.v
theories/SysProofs6.v
theories/SysProofs7.v
theories/SysProofs8.v
theories/SysProofs9.v
theories/SysProofs10.v
theories/SysProofs11.v
theories/SysProps.v
theories/SysProofs12.v
theories/SysProofs13.v
theories/SysVars.v
theories/SysVars2.v
theories/SysVars3.v
theories/SysVars4.v
theories/SysAccept.v
theories/SysEnd.v
theories/QueueModel.v
theories/QueueProofs.v
theories/QueueProps.v
theories/CancelModel.v
theories/CancelProps.v
theories/DaModel.v
theories/DaProps.v
theories/DaOnce.v
theories/DaEnd.v
theories/SendModel.v
theories/SendProps.v
theories/ArgsModel.v
theories/ArgsProps.v
theories/Utf8.v
theories/JsonProps.v
theories/ShModel.v
theories/ShProps.v
theories/AddrModel.v
theories/AddrSpec.v
theories/AddrProps.v
theories/ExecModel.v
theories/ExecProps.v
theories/ReplModel.v
theories/ReplProps.v
theories/ReplWords.v
theories/TreeModel.v
theories/TreeProps.v
theories/StackSpec.v
theories/StackProofs.v
theories/StackProps.v
theories/LeadSpec.v
theories/LeadProofs.v
theories/LeadProps.v
theories/ScopeSpec.v
theories/ScopeProofs.v
theories/ScopeProps.v
theories/LockModel.v
theories/LockProps.v
theories/AckModel.v
theories/AckProps.v
theories/RefModel.v
theories/RefProps.v
theories/ViewModel.v
theories/ViewProps.v
theories/FilterModel.v
theories/FilterProps.v
theories/TableKeep.v
theories/LifeModel.v
theories/LifeSpec.v
theories/LifeProps.v
theories/BooksProps.v
theories/LogModel.v
theories/LogSpec.v
theories/LogProps.v
theories/TableModel.v
theories/TableProps.v
theories/TableSeq.v
theories/TableOrder.v
theories/ReadModel.v
theories/ReadProps.v
theories/WireSpec.v
theories/WireModel.v
theories/WireProofs.v
theories/WireProps.v
theories/WireAccept.v
theories/WireEnd.v
theories/OutSpec.v
theories/OutModel.v
theories/OutProofs.v
theories/OutProps.v
theories/OutEnd.v
theories/DaOut.v
theories/CliModel.v
theories/CliSpec.v
theories/CliProofs.v
theories/CliProps.v
theories/HistSpec.v
theories/HistProofs.v
theories/HistProps.v
theories/StepSpec.v
theories/StepProofs.v
theories/StepProps.v
theories/PipeModel.v
theories/PipeSpec.v
theories/PipeProps.v
theories/PipeDemo.v
theories/OsModel.v
theories/OsSpec.v
theories/OsProofs.v
theories/OsProps.v
theories/OsClose.v
theories/PlayModel.v
theories/PlaySpec.v
theories/PlayProofs.v
theories/PlayEnd.v
theories/PlayShape.v
theories/PlayProps.v
theories/VtModel.v
theories/VtProps.v
theories/SingModel.v
theories/SingProps.v
