-Q theories Verif

theories/PyBase.v
theories/PyFloat.v
theories/PyFloatProofs.v
theories/PyFmt.v
theories/PyFmtProofs.v
theories/PyFmtProofs2.v
theories/XmlModel.v
theories/RegistryModel.v
theories/RegistrySpec.v
theories/RegistryProofs.v
theories/RegistryProps.v
theories/TimeModel.v
theories/TimeSpec.v
theories/TimeProofs.v
theories/TimeProofs2.v
theories/TimeProps.v
theories/PyRoundProofs.v
theories/PyGProofs.v
theories/ValModel.v
theories/SerModel.v
theories/ValSpec.v
theories/SerProofs.v
theories/ValProofs.v
theories/ValProofs2.v
theories/ValProps.v
theories/TlModel.v
theories/TlSpec.v
theories/TlProofs.v
theories/TlProofs2.v
theories/TlProofs3.v
theories/TlProofs4.v
theories/TlProps.v
theories/DocModel.v
theories/DocProofs.v
theories/DocProofs2.v
theories/ClsTable.v
theories/LayModel.v
theories/LaySpec.v
theories/LayProofs.v
theories/LayProofs2.v
theories/LayProofs3.v
theories/LayProofs4.v
theories/LayProofs5.v
theories/LayProofs6.v
theories/LayProofs7.v
theories/LayProps.v
theories/ClsProofs.v
theories/ClsProps.v
theories/XpModel.v
theories/XpSpec.v
theories/XpProofs.v
theories/AnimModel.v
theories/AnimSpec.v
theories/AnimProofs.v
theories/AnimProofs2.v
theories/AnimProofs3.v
theories/AnimProofs4.v
theories/AnimProofs5.v
theories/AnimProps.v
theories/BywModel.v
theories/BywSpec.v
theories/BywProofs.v
theories/BywProofs2.v
theories/BywProofs3.v
theories/BywProofs4.v
theories/BywProofs5.v
theories/BywProofs6.v
theories/BywProofs7.v
theories/BywProofs8.v
theories/BywProofs9.v
theories/BywProofs10.v
theories/BywProofs11.v
theories/BywProofs12.v
theories/BywProofs13.v
theories/BywProofs14.v
theories/BywProofs15.v
theories/BywProps.v
theories/BywProps2.v
theories/AnimSpec2.v
theories/AnimProofs6.v
theories/AnimProps2.v
theories/RepModel.v
theories/RepSpec.v
theories/RepProofs.v
theories/RepProofs2.v
theories/RepProofs3.v
theories/RepProofs4.v
theories/RepProofs5.v
theories/RepProps.v
theories/PexModel.v
theories/PexSpec.v
theories/PexProofs.v
theories/PexProofs2.v
theories/PexProofs3.v
theories/PexProofs4.v
theories/PexProps.v
theories/PexProps2.v
theories/EtcModel.v
theories/EtcSpec.v
theories/EtcProofs.v
theories/EtcProofs2.v
theories/EtcProofs3.v
theories/EtcProps.v
theories/WrSpec.v
theories/WrProofs.v
theories/WrProofs2.v
theories/WrProofs3.v
theories/WrProofs4.v
theories/WrProofs5.v
theories/WrProps.v
theories/WrSpec2.v
theories/WrProofs6.v
theories/WrProps2.v
theories/ViewModel.v
theories/ViewSpec.v
theories/ViewProofs.v
theories/ViewProps.v
theories/ViewProofs2.v
theories/ViewProps2.v
theories/SymTable.v
theories/StrModel.v
theories/StrSpec.v
theories/StrProofs.v
theories/StrProofs2.v
theories/StrProofs3.v
theories/StrProps.v
theories/StrProps2.v
theories/TypeModel.v
theories/TypeSpec.v
theories/TypeProofs.v
theories/TypeProps.v
theories/AnimProps3.v
theories/ViewProps3.v
theories/ViewProps4.v
theories/ScanModel.v
theories/ScanSpec.v
theories/ScanProofs.v
theories/ScanProofs2.v
theories/ScanProofs3.v
theories/ScanProps.v
theories/RepProps2.v
theories/TlProofs5.v
theories/TlProps2.v
theories/ScanSpec2.v
theories/ScanProofs4.v
theories/ScanProps2.v
theories/AnimProps4.v
theories/MoreSpec.v
theories/MoreProps.v
theories/SavSpec.v
theories/SavProofs.v
theories/SavProps.v
theories/BywProps3.v
theories/SavSpec2.v
theories/SavProofs2.v
theories/SavProofs3.v
theories/SavProps2.v
theories/LoopModel.v
theories/MovSpec.v
theories/MovProofs.v
theories/MovProofs2.v
theories/MovProps.v
theories/FindProps.v
theories/VarSpec.v
theories/VarProofs.v
theories/VarProps.v
theories/MixSpec.v
theories/MixProofs.v
theories/MixProps.v
theories/MoreProps2.v
theories/PrmSpec.v
theories/PrmProofs.v
theories/PrmProofs2.v
theories/PrmProofs3.v
theories/PrmProps.v
theories/WldSpec.v
theories/WldProofs.v
theories/WldProofs2.v
theories/WldProps.v
theories/WpvModel.v
theories/WpvProofs.v
theories/WpvProps.v
theories/CpyModel.v
theories/CpyProps.v
theories/EndSpec.v
theories/EndProofs.v
theories/EndProofs2.v
theories/EndProps.v
theories/TutModel.v
theories/TutSpec.v
theories/TutProofs.v
theories/TutFile.v
theories/TutProps.v
theories/PgmSpec.v
theories/PgmProofs.v
theories/PgmProps.v
theories/PgmProps2.v
theories/TwoSpec.v
theories/TwoProofs.v
theories/TwoProps.v
theories/CycModel.v
theories/CycProps.v
theories/UtilModel.v
theories/UtilProps.v
theories/CanvModel.v
theories/CanvProps.v
theories/FndModel.v
theories/FndSpec.v
theories/FndProofs.v
theories/FndProps.v
theories/FtyProps.v
theories/FtyProps2.v
theories/CtlModel.v
theories/CtlSpec.v
theories/CtlProofs.v
theories/CtlProps.v
theories/RatSpec.v
theories/RatProofs.v
theories/RatProps.v
theories/TightProps.v
theories/TightProps2.v
theories/TightProps3.v
theories/TightProps4.v
theories/SavProofs4.v
theories/AliModel.v
theories/AliSpec.v
theories/AliProofs.v
theories/AliProps.v
theories/HldModel.v
theories/HldSpec.v
theories/HldProofs.v
theories/HldProps.v
theories/PrtModel.v
theories/PrtSpec.v
theories/PrtProofs.v
theories/PrtProps.v
theories/HpaModel.v
theories/HpaProps.v
theories/DscModel.v
theories/DscSpec.v
theories/DscProofs.v
theories/DscProofs2.v
theories/DscProps.v
theories/DscProps2.v
theories/EncModel.v
theories/EncSpec.v
theories/EncProofs.v
theories/EncProps.v
theories/EncProps2.v
theories/TcpModel.v
theories/TcpProps.v
theories/RlcModel.v
theories/RlcProps.v
theories/OatModel.v
theories/OatSpec.v
theories/OatProofs.v
theories/OatProps.v
theories/IdnModel.v
theories/IdnSpec.v
theories/IdnProofs.v
theories/IdnProps.v
