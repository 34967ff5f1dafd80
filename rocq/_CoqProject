-Q theories Verif

theories/Base.v
theories/OBTypes.v
theories/OBModel.v
theories/OBSpec.v
theories/OBBase.v
theories/OBInv.v
theories/OBRemove.v
theories/OBTrade.v
theories/OBRel.v
theories/OBSim.v
theories/OBSnap.v
theories/OBDec.v
theories/OBStep.v
theories/OBLaws.v
theories/OBMarketSell.v
theories/OBMore.v
theories/OBViews.v
theories/OBProofs.v
theories/OBDecide.v
theories/OBProps.v
theories/OBProps2.v
theories/OBProps3.v
theories/NumModel.v
theories/NumProofs.v
theories/NumSpec.v
theories/NumConv.v
theories/NumProps.v
theories/KrxModel.v
theories/KrxSpec.v
theories/KrxProofs.v
theories/KrxMsg.v
theories/KrxUtf8.v
theories/KrxProps.v
theories/KrxProps2.v
theories/SpinModel.v
theories/SpinSpec.v
theories/SpinProofs.v
theories/SpinInv.v
theories/SpinLive.v
theories/SpinDrive.v
theories/SpinProps.v
theories/CivilSpec.v
theories/ClockModel.v
theories/ClockProofs.v
theories/ClockProps.v
theories/IdModel.v
theories/IdProps.v
theories/LogModel.v
theories/LogSpec.v
theories/LogProofs.v
theories/LogProps.v
theories/FloatModel.v
theories/FloatFacts.v
theories/TickModel.v
theories/TickProofs.v
theories/TickSpec.v
theories/TickProps.v
theories/EwmaModel.v
theories/EwmaProps.v
theories/QDateModel.v
theories/QDateProofs.v
theories/QCalTables.v
theories/QCalModel.v
theories/QCalProofs.v
theories/QCalScan.v
theories/QCalSpec.v
theories/QCalAdjust.v
theories/QCalAdjust2.v
theories/QCalDisplay.v
theories/QCalRules.v
theories/QCalKorea.v
theories/QCalProps.v
theories/QYearModel.v
theories/QYearProofs.v
theories/QYearSpec.v
theories/QYearProps.v
theories/QPeriodModel.v
theories/QPeriodSpec.v
theories/QPeriodProofs.v
theories/QPeriodProps.v
theories/QPeriodFModel.v
theories/QPeriodFProps.v
theories/QSchedModel.v
theories/QSchedSpec.v
theories/QSchedProofs.v
theories/QSchedBack.v
theories/QSchedTotal.v
theories/QSchedProps.v
theories/QFindModel.v
theories/QFindSpec.v
theories/QFindProofs.v
theories/QFindProps.v
theories/QInterpModel.v
theories/QInterpSpec.v
theories/QInterpProofs.v
theories/QStepProps.v
theories/QFloatErr.v
theories/QLinProofs.v
theories/QLinProps.v
theories/QBilinProps.v
theories/QDistProps.v
theories/QDivModel.v
theories/QDivSpec.v
theories/QDivProofs.v
theories/QDivProps.v
theories/QRollProofs.v
theories/QRollProps.v
theories/QCurveModel.v
theories/QCurveSpec.v
theories/QCurveDates.v
theories/QCurveProofs.v
theories/QCurveFacts.v
theories/QCurveReach.v
theories/QCurveDisc.v
theories/QCurveExp.v
theories/QCurveProps.v
theories/QCurveFwdProps.v
theories/QBondModel.v
theories/QBondSpec.v
theories/QBondProofs.v
theories/QBondPriceProps.v
theories/QBondProps.v
theories/QCouponProps.v
theories/QYieldProofs.v
theories/QYieldProps.v
theories/QKtbfProps.v
theories/QMoneyModel.v
theories/QMoneyProps.v
theories/QSwapModel.v
theories/QSwapSpec.v
theories/QSwapProps.v
theories/QSwapPriceProps.v
theories/QFutModel.v
theories/QFutProps.v
theories/QNormal.v
theories/QOptSpec.v
theories/QBlackReal.v
theories/QBlackExp.v
theories/QOptProofs.v
theories/QOptProps.v
theories/QInstModel.v
theories/QInstSpec.v
theories/QInstProps.v
theories/QMatchProps.v
theories/QVolModel.v
theories/QVolSpec.v
theories/QVolProofs.v
theories/QVolProps.v
theories/QVolMktProps.v
theories/QVolBumpProps.v
theories/QEngModel.v
theories/QEngSpec.v
theories/QEngProofs.v
theories/QEngFrame.v
theories/QEngProps.v
theories/QEngDeltaProps.v
theories/QEngRealProps.v
theories/QEngBump.v
theories/QEngBumpProps.v
theories/QEngBackProps.v
theories/QEngLadder.v
theories/QEngLadderProps.v
theories/QEngVega.v
theories/QEngVegaProps.v
theories/QEngThetaProps.v
theories/QEngThetaBackProps.v
theories/QEngMatrix.v
theories/QEngMatrixProps.v
theories/QConvModel.v
theories/QConvProps.v
theories/QLoadModel.v
theories/QLoadSpec.v
theories/QLoadProofs.v
theories/QLoadProps.v
theories/QPricerProps.v
theories/QGenModel.v
theories/QGenProofs.v
theories/QGenProps.v
theories/QGroupProofs.v
theories/QGroupProps.v
theories/QCholModel.v
theories/QCholSpec.v
theories/QCholProofs.v
theories/QCholSure.v
theories/QCholProps.v
theories/QWholeModel.v
theories/QWholeSpec.v
theories/QWholeProofs.v
theories/QWholeProps.v
theories/QSeekModel.v
theories/QSeekSpec.v
theories/QSeekProps.v
theories/MiscModel.v
theories/MiscSpec.v
theories/MiscProps.v
theories/QRiskSpec.v
theories/QRiskProofs.v
theories/QRiskProps.v
theories/QDecaySpec.v
theories/QDecayProofs.v
theories/QDecayProps.v
theories/UdpModel.v
theories/UdpSpec.v
theories/UdpProofs.v
theories/UdpProps.v
