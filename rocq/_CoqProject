-Q theories Verif
theories/StackModel.v
theories/StackSpec.v
theories/StackProofs.v
theories/Prop_Stack.v
theories/RuntimeModel.v
theories/RuntimeSpec.v
theories/RuntimeInv.v
theories/RuntimeStep.v
theories/RuntimeStep2.v
theories/RuntimeStep3.v
theories/RuntimeStep4.v
theories/RuntimeStep5.v
theories/RuntimeStep6.v
theories/RuntimeStep7.v
theories/RuntimeSafe.v
theories/RuntimeHist.v
theories/RuntimeHist2.v
theories/RuntimeHist3.v
theories/RuntimeHist4.v
theories/RuntimeExamples.v
theories/RuntimeThms.v
theories/RuntimeLimit.v
theories/Prop_Runtime.v
theories/DequeModel.v
theories/DequeSpec.v
theories/DequeProofs.v
theories/DequeLin.v
theories/Prop_Deque.v
theories/ListModel.v
theories/ListSpec.v
theories/ListProofs.v
theories/Prop_List.v
theories/EventModel.v
theories/EventSpec.v
theories/EventProofs.v
theories/Prop_Event.v
theories/AlgoModel.v
theories/AlgoLogic.v
theories/AlgoSpec.v
theories/AlgoProofs.v
theories/AlgoScan.v
theories/Prop_Algo.v
theories/PoolCommon.v
theories/PoolFair.v
theories/PoolSpec.v
theories/LazyModel.v
theories/LazySpec.v
theories/LazyProofs.v
theories/LazyInv.v
theories/LazyThief.v
theories/LazyLive.v
theories/LazyLive2.v
theories/LazyLive3.v
theories/BusyModel.v
theories/BusySpec.v
theories/BusyProofs.v
theories/BusyLive.v
theories/LazyHist.v
theories/PoolExamples.v
theories/Prop_Lazy.v
theories/Prop_Busy.v
theories/PrimeLib.v
theories/RandomModel.v
theories/RandomSpec.v
theories/RandomProofs.v
theories/RandomPeriod.v
theories/Prop_Random.v
theories/EventuallyModel.v
theories/EventuallySpec.v
theories/EventuallyProofs.v
theories/Prop_Eventually.v
theories/FutureModel.v
theories/FutureSpec.v
theories/FutureProofs.v
theories/FutureStep.v
theories/FutureStep2.v
theories/Prop_Future.v
theories/TlsModel.v
theories/TlsSpec.v
theories/TlsProofs.v
theories/Prop_Tls.v
theories/NumaModel.v
theories/NumaSpec.v
theories/NumaProofs.v
theories/Prop_Numa.v
theories/RuntimeTermSpec.v
theories/RuntimeTermOrder.v
theories/RuntimeTerm.v
theories/RuntimeTerm2.v
theories/RuntimeTerm3.v
theories/Prop_Term.v
theories/WeakModel.v
theories/WeakSpec.v
theories/WeakProofs.v
theories/WeakSteps.v
theories/Prop_Weak.v
theories/SyncSpec.v
theories/SyncModel.v
theories/SyncViews.v
theories/SyncInv.v
theories/SyncTrans.v
theories/SyncAccess.v
theories/SyncStep.v
theories/SyncStep2.v
theories/SyncMove.v
theories/SyncJoin.v
theories/SyncMove2.v
theories/SyncMove3.v
theories/SyncEnd.v
theories/SyncNew.v
theories/SyncMain.v
theories/SyncOrder.v
theories/SyncOrder2.v
theories/SyncOrder3.v
theories/Prop_Sync.v
theories/LazyWeakModel.v
theories/LazyWeakProofs.v
theories/Prop_LazyWeak.v
theories/WholeModel.v
theories/WholeSpec.v
theories/WholeRt.v
theories/WholeInv.v
theories/WholeEsc.v
theories/WholeProofs.v
theories/Prop_Whole.v
theories/LazyIdle.v
theories/Prop_Idle.v
theories/BWholeModel.v
theories/BWholeSpec.v
theories/BWholeInv.v
theories/BWholeProofs.v
theories/Prop_BWhole.v
theories/LifeModel.v
theories/LifeSpec.v
theories/LifeProofs.v
theories/LifeLive.v
theories/PoolMoveModel.v
theories/Prop_Life.v
theories/RuntimeTree.v
theories/Prop_Tree.v
theories/AlgoTaskModel.v
theories/AlgoTaskSpec.v
theories/AlgoTaskProofs.v
theories/Prop_AlgoTask.v
theories/SpaceSpec.v
theories/SpaceProofs.v
theories/SpaceProofs2.v
theories/Prop_Space.v
theories/FineModel.v
theories/FineSpec.v
theories/FineDeque.v
theories/FineProofs.v
theories/FineProofs2.v
theories/Prop_Fine.v
theories/FineLiveSpec.v
theories/FineLive.v
theories/Prop_FineLive.v
theories/DequeCostSpec.v
theories/DequeCost.v
theories/Prop_DequeCost.v
theories/StaleSpec.v
theories/StaleProofs.v
theories/Prop_Stale.v
theories/ViewModel.v
theories/ViewProofs.v
theories/ViewSteps.v
theories/Prop_View.v
theories/DeepModel.v
theories/DeepSpec.v
theories/DeepFine.v
theories/DeepProofs.v
theories/Prop_Deep.v
theories/BDeepModel.v
theories/BDeepSpec.v
theories/BDeepProofs.v
theories/Prop_BDeep.v
theories/Prop_Eager.v
theories/RStackModel.v
theories/RStackSpec.v
theories/RStackProofs.v
theories/Prop_RStack.v
theories/FutureLifeSpec.v
theories/Prop_FutureLife.v
theories/Prop_AlgoDeep.v
theories/FStackModel.v
theories/FStackSpec.v
theories/FStackProofs.v
theories/Prop_FStack.v
theories/BStackModel.v
theories/BStackSpec.v
theories/BStackProofs.v
theories/Prop_BStack.v
theories/LStackModel.v
theories/LStackSpec.v
theories/LStackProofs.v
theories/Prop_LStack.v
theories/SubmitModel.v
theories/SubmitSpec.v
theories/SubmitProofs.v
theories/Prop_Submit.v
theories/Prop_AlgoStack.v
theories/DMemModel.v
theories/DMemSpec.v
theories/DMemProofs.v
theories/Prop_DMem.v
