-Q theories Verif
theories/Prelude.v
theories/Blocklist.v
theories/BlocklistProofs.v
theories/BlocklistSem.v
theories/BlocklistSpec.v
theories/BlocklistMain.v
theories/BlocklistMore.v
theories/BlocklistThm.v
theories/BlocklistFinal.v
theories/BlocklistSmall.v
theories/BlocklistStores.v
theories/BlocklistCrash.v
theories/BlocklistKept.v
theories/BlocklistTwice.v
theories/PropsCrash.v
theories/Keys.v
theories/PropsBlocklist.v
theories/Codec.v
theories/PropsCodec.v
theories/CacheModel.v
theories/CacheInv.v
theories/CacheOps.v
theories/CacheWorld.v
theories/CacheSpec.v
theories/CacheFacts.v
theories/CacheFrame.v
theories/CacheHist.v
theories/CacheRuns.v
theories/CacheDir.v
theories/CacheApi.v
theories/PropsCache.v
theories/PropsCache2.v
theories/Txn.v
theories/TxnFacts.v
theories/TxnInv.v
theories/TxnStep.v
theories/TxnGlobal.v
theories/PropsTxn.v
theories/PropsTxn2.v
theories/PropsTxn3.v
theories/Fuse.v
theories/PropsFuse.v
theories/Fs.v
theories/FsSpec.v
theories/FsInv.v
theories/FsCases.v
theories/FsDir.v
theories/FsAttrs.v
theories/FsLoops.v
theories/FsMain.v
theories/FsKnow.v
theories/FsNews.v
theories/FsHist.v
theories/FsPlay.v
theories/PropsFs.v
theories/FsStream.v
theories/PropsFs2.v
theories/InMem.v
theories/InMemInv.v
theories/PropsMem.v
theories/PropsMem2.v
theories/PropsMem3.v
theories/PropsMem4.v
theories/Local.v
theories/PropsLocal.v
theories/PropsEnd.v
theories/PropsEnd2.v
theories/PropsMore.v
theories/Conc.v
theories/ConcSpec.v
theories/ConcSim.v
theories/ConcMain.v
theories/ConcFault.v
theories/ConcKernel.v
theories/ConcHist.v
theories/PropsConc.v
theories/ConcPlay.v
theories/Lmdb.v
theories/LmdbRel.v
theories/LmdbOps.v
theories/PropsLmdb.v
theories/Calls.v
theories/PropsCalls.v
theories/Mutex.v
theories/PropsMutex.v
theories/FsClean.v
theories/LocalFs.v
theories/PropsLocalFs.v
theories/FsLinks.v
theories/FsChange.v
theories/PropsLinks.v
theories/FsPlusStream.v
theories/FsPlusAlone.v
theories/PropsPlus.v
theories/PropsLeak.v
theories/Mount.v
theories/PropsMount.v
theories/BlocklistAccess.v
theories/PropsAccess.v
theories/PropsAbort.v
theories/LocalIO.v
theories/PropsLocalIO.v
theories/CachedDir.v
theories/PropsCachedDir.v
theories/FsWalk.v
theories/FsPaths.v
theories/PropsWalk.v
theories/FsFlags.v
theories/PropsList.v
theories/PropsReply.v
theories/Backing.v
theories/PropsBacking.v
theories/LmdbDamage.v
theories/PropsDamage.v
theories/FsBytes.v
theories/FsBytesSim.v
theories/PropsBytes.v
theories/LmdbViews.v
theories/LmdbViewsSim.v
theories/PropsViews.v
theories/PropsDamage2.v
theories/PropsDamage3.v
theories/LocalDir.v
theories/PropsLocalDir.v
theories/MountDirs.v
theories/PropsMountDirs.v
theories/ConcCalls.v
theories/PropsConcCalls.v
theories/PropsConcWhere.v
theories/PropsConcDirs.v
theories/PropsConcLegal.v
theories/PropsConcOwn.v
theories/PropsAgain.v
theories/PropsTidy.v
theories/PropsNumber.v
