-Q theories Verif
theories/Base.v
theories/Strs.v
theories/Prog.v
theories/Sem.v
theories/StorageImpl.v
theories/Model.v
theories/Api.v
theories/Spec.v
theories/Env.v
theories/Alone.v
theories/Dec.v
theories/Rot.v
theories/Repl.v
theories/Btbv.v
theories/Typed.v
theories/Foot.v
theories/Life.v
theories/PfStrs.v
theories/PfStorage.v
theories/PfTyped.v
theories/PfWp.v
theories/PfFrame.v
theories/PfHist.v
theories/PfEmits.v
theories/PfAlone.v
theories/PfIdentity.v
theories/PfUpdate.v
theories/PfDevices.v
theories/PfInfo.v
theories/PfTrust.v
theories/PfExec.v
theories/PfNet.v
theories/PfPurge.v
theories/PfLog.v
theories/PfLoaded.v
theories/PfEncrypt.v
theories/PfEncrypt2.v
theories/PfEncrypt3.v
theories/PfEncrypt4.v
theories/PfEncrypt5.v
theories/PfEmpty.v
theories/PfDec.v
theories/PfDec2.v
theories/PfDec3.v
theories/PfDec4.v
theories/PfDec5.v
theories/PfDec6.v
theories/PfSync.v
theories/PfRot.v
theories/PfReplace.v
theories/PfBtbv.v
theories/PfKinds.v
theories/PfCreate.v
theories/PfFill.v
theories/PfFoot.v
theories/PfFootCache.v
theories/PfReconcile.v
theories/Heap.v
theories/PfHeap.v
theories/PfLife.v
theories/PfAlive.v
theories/PfAlive2.v
theories/PfAlive3.v
theories/PfAlive4.v
theories/PfHealth.v
theories/Publish.v
theories/PfPublish.v
theories/Docs.v
theories/PfDocs.v
theories/PropsStorage.v
theories/PropsIdentity.v
theories/PropsDevices.v
theories/PropsTrust.v
theories/PropsPurge.v
theories/PfRepair.v
theories/PropsCreate.v
theories/PropsEncrypt.v
theories/PropsDecrypt.v
theories/PropsSync.v
theories/PropsRot.v
theories/PropsReplace.v
theories/PropsBtbv.v
theories/PropsTyped.v
theories/PropsFoot.v
theories/PropsPublish.v
theories/PropsLife.v
theories/PropsHealth.v
theories/PropsDocs.v
theories/Trip.v
theories/PfTrip.v
theories/PfTrip2.v
theories/PropsTrip.v
theories/Deliver.v
theories/PfDeliver.v
theories/PropsDeliver.v
theories/PfSent.v
theories/PropsSent.v
theories/Ratchet.v
theories/PfRatchet.v
theories/PropsRatchet.v
theories/PfManual.v
theories/PropsManual.v
theories/Distrust.v
theories/PfQuiet.v
theories/PfDistrust.v
theories/PropsDistrust.v
theories/Prov.v
theories/PfProv.v
theories/PropsProv.v
theories/Share.v
theories/PfShare.v
theories/PfShare2.v
theories/PropsShare.v
theories/Uncached.v
theories/PfUncached.v
theories/PropsUncached.v
theories/One.v
theories/PfWalk.v
theories/PfOne.v
theories/PfOne2.v
theories/PfOne3.v
theories/PropsOne.v
theories/Cached.v
theories/PfCached.v
theories/PropsCached.v
theories/Talk.v
theories/PfTalk.v
theories/PropsTalk.v
theories/Frugal.v
theories/PfFrugal.v
theories/PfFrugal2.v
theories/PropsFrugal.v
theories/Origin.v
theories/PfOrigin.v
theories/PropsOrigin.v
theories/Renew.v
theories/PfRenew.v
theories/PropsRenew.v
theories/Stop.v
theories/PfStop.v
theories/PropsStop.v
theories/Handle.v
theories/PfHandle.v
theories/PropsHandle.v
theories/Doubt.v
theories/PfDoubt.v
theories/PropsDoubt.v
theories/Enough.v
theories/PfEnough.v
theories/PropsEnough.v
theories/Objects.v
theories/PfObjects.v
theories/PfObjects2.v
theories/PropsObjects.v
