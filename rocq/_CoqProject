-Q theories Verif
theories/PyBase.v
theories/DTableModel.v
theories/DTableSpec.v
theories/DTableProofs.v
theories/P_DTable.v
theories/TransferModel.v
theories/TransferSpec.v
theories/TransferProofs.v
theories/P_Transfer.v
theories/QcBase.v
theories/FixedPointModel.v
theories/FixedPointSpec.v
theories/FixedPointProofs.v
theories/P_FixedPoint.v
theories/NumTheory.v
theories/PaillierModel.v
theories/PaillierSpec.v
theories/PaillierProofs.v
theories/EncNumProofs.v
theories/P_Paillier.v
theories/TableRel.v
theories/EncryptModeModel.v
theories/EncryptModeSpec.v
theories/EncryptModeProofs.v
theories/EncryptModePaillier.v
theories/P_EncryptMode.v
theories/CipherModel.v
theories/CipherSpec.v
theories/CipherProofs.v
theories/P_Cipher.v
theories/FloatProofs.v
theories/QuantileModel.v
theories/QuantileSpec.v
theories/QuantileProofs.v
theories/QuantileHist.v
theories/QuantileFit.v
theories/QuantileTable.v
theories/P_Quantile.v
theories/BinningModel.v
theories/BinningSpec.v
theories/BinningProofs.v
theories/P_Binning.v
theories/HistModel.v
theories/HistSpec.v
theories/HistProofs.v
theories/HistPaillier.v
theories/P_Hist.v
theories/SplitModel.v
theories/SplitSpec.v
theories/SplitProofs.v
theories/SplitPaillier.v
theories/P_Split.v
theories/ProcModel.v
theories/ProcProofs.v
theories/TreeModel.v
theories/TreeSpec.v
theories/TreeCand.v
theories/TreeBatch.v
theories/TreeLevel.v
theories/TreeRepr.v
theories/TreeFit.v
theories/TreeFacts.v
theories/TreePaillier.v
theories/TreeRun.v
theories/TreeMain.v
theories/P_Tree.v
theories/PredictModel.v
theories/PredictSpec.v
theories/PredictProofs.v
theories/PredictMain.v
theories/PredictSave.v
theories/TreePrivacy.v
theories/P_Predict.v
theories/BoostModel.v
theories/BoostSpec.v
theories/BoostProofs.v
theories/BoostMain.v
theories/LabelProofs.v
theories/P_Boost.v
theories/LossModel.v
theories/LossProofs.v
theories/P_Loss.v
theories/StatModel.v
theories/StatSpec.v
theories/StatProofs.v
theories/P_Statistics.v
theories/InputModel.v
theories/InputSpec.v
theories/InputProofs.v
theories/P_Input.v
theories/ParamModel.v
theories/ParamSpec.v
theories/ParamProofs.v
theories/P_Param.v
theories/RunModel.v
theories/RunSpec.v
theories/RunProofs.v
theories/P_Run.v
theories/LocalModel.v
theories/LocalProofs.v
theories/LocalMain.v
theories/JoinSpec.v
theories/JoinProofs.v
theories/JoinMain.v
theories/P_Local.v
theories/PipeModel.v
theories/PipeSpec.v
theories/PipeProofs.v
theories/PipeMain.v
theories/P_Pipe.v
theories/ScriptModel.v
theories/ScriptSpec.v
theories/ScriptProofs.v
theories/P_Script.v
theories/SocketModel.v
theories/SocketSpec.v
theories/SocketProofs.v
theories/P_Socket.v
theories/ModeModel.v
theories/ModeMain.v
theories/P_Mode.v
theories/LeakSpec.v
theories/LeakProofs.v
theories/LeakMain.v
theories/P_Leak.v
theories/XgbModel.v
theories/XgbSpec.v
theories/XgbMain.v
theories/XgbProofs.v
theories/P_Xgb.v
theories/XgbJoin.v
theories/P_XgbJoin.v
theories/OperatorModel.v
theories/P_Operator.v
theories/FloatSplitModel.v
theories/FloatSplitSpec.v
theories/FloatSplitProofs.v
theories/FloatSplitMain.v
theories/P_FloatSplit.v
theories/FloatTreeModel.v
theories/FloatTreeSpec.v
theories/FloatTreeProofs.v
theories/FloatTreeMain.v
theories/FloatTreeSame.v
theories/P_FloatTree.v
theories/CloseModel.v
theories/CloseSpec.v
theories/CloseProofs.v
theories/P_Close.v
theories/ArrayModel.v
theories/ArraySpec.v
theories/ArrayProofs.v
theories/P_Array.v
theories/RuleModel.v
theories/RuleSpec.v
theories/RuleProofs.v
theories/P_Rule.v
theories/KeygenModel.v
theories/KeygenSpec.v
theories/KeygenProofs.v
theories/P_Keygen.v
theories/P_AffineLeak.v
theories/MergeModel.v
theories/MergeProofs.v
theories/MergeCells.v
theories/P_Merge.v
theories/SumDictModel.v
theories/SumDictProofs.v
theories/SumDictExact.v
theories/SumDictSparse.v
theories/P_SumDict.v
theories/ColsModel.v
theories/P_Cols.v
