-Q theories Verif
theories/Py.v
theories/Utf8.v
theories/KVForm.v
theories/PyFacts.v
theories/Utf8Facts.v
theories/KVFormFacts.v
theories/Prop_KVForm.v
theories/CryptUtil.v
theories/CryptUtilFacts.v
theories/DH.v
theories/DHFacts.v
theories/Prop_Crypt.v
theories/Prop_CryptExact.v
theories/Message.v
theories/MessageFacts.v
theories/MessageWire.v
theories/MessageParse.v
theories/MessageSpec.v
theories/MessageRound.v
theories/Prop_Message.v
theories/Association.v
theories/AssociationFacts.v
theories/Prop_Association.v
theories/Prop_Association2.v
theories/UrlLib.v
theories/UrlLibFacts.v
theories/UriNorm.v
theories/UriNormFacts.v
theories/UriNormStable.v
theories/OidUtil.v
theories/OidUtilFacts.v
theories/Prop_Uri.v
theories/TrustRoot.v
theories/TrustRootFacts.v
theories/Prop_TrustRoot.v
theories/Nonce.v
theories/NonceFacts.v
theories/Prop_Nonce.v
theories/Store.v
theories/StoreSpec.v
theories/StoreFacts.v
theories/Prop_StoreMem.v
theories/Prop_StoreSql.v
theories/FileStore.v
theories/FileStoreFacts.v
theories/Prop_FileNames.v
theories/Prop_StoreFile.v
theories/FileConc.v
theories/Prop_FileConc.v
theories/FileSys.v
theories/FileAtomic.v
theories/FileSysFacts.v
theories/Prop_FileSys.v
theories/Prop_FileAtomic.v
theories/SqlTxn.v
theories/Prop_SqlTxn.v
theories/SqlConc.v
theories/Prop_SqlConc.v
theories/SqlAtomicFacts.v
theories/Prop_SqlAtomic.v
theories/FileCrash.v
theories/Prop_FileCrash.v
theories/Server.v
theories/ServerFacts.v
theories/ServerStores.v
theories/SignatoryFacts.v
theories/Prop_ServerDecode.v
theories/Prop_Signatory.v
theories/MessageSimple.v
theories/Prop_ServerAnswer.v
theories/Prop_ServerEncode.v
theories/Prop_ServerAssociate.v
theories/Endpoint.v
theories/Consumer.v
theories/ConsumerFacts.v
theories/Prop_Consumer.v
theories/Prop_ConsumerOnce.v
theories/Prop_ConsumerTotal.v
theories/Prop_ConsumerAssoc.v
theories/Prop_ConsumerRequest.v
theories/Manager.v
theories/Prop_Manager.v
theories/Xri.v
theories/Prop_Xri.v
theories/Etxrd.v
theories/Prop_Etxrd.v
theories/Discover.v
theories/Prop_Discover.v
theories/Prop_DiscoverUri.v
theories/Prop_DiscoverXri.v
theories/Prop_Yadis.v
theories/Expires.v
theories/Prop_Expires.v
theories/Prop_Wire.v
theories/Deploy.v
theories/DeployFacts.v
theories/DeployStores.v
theories/Prop_DeployRP.v
theories/Prop_DeployOP.v
theories/Prop_DeployBoth.v
theories/Prop_DeployFinds.v
theories/Prop_DeployAccepts.v
theories/Prop_DeployLogin.v
theories/Prop_DeployStateless.v
theories/Prop_UriAccept.v
theories/Prop_Exn.v
theories/ExtFacts.v
theories/Fetch.v
theories/Prop_Fetch.v
theories/Verify.v
theories/Prop_Verify.v
theories/Accept.v
theories/AcceptFacts.v
theories/Prop_Accept.v
theories/Sreg.v
theories/Prop_Sreg.v
theories/Ax.v
theories/AxFacts.v
theories/Prop_Ax.v
theories/Pape.v
theories/Prop_Pape.v
theories/Prop_ConsumerAccepts.v
theories/Prop_EndToEnd.v
theories/Prop_Unforged.v
theories/Html.v
theories/HtmlSpec.v
theories/HtmlFacts.v
theories/Prop_Html.v
theories/Prop_HtmlSent.v
theories/Prop_HtmlLogin.v
theories/Conc.v
theories/ConcFacts.v
theories/ServerConc.v
theories/ServerConcFacts.v
theories/Prop_ServerConc.v
theories/ConsumerConc.v
theories/Prop_ConsumerConc.v
theories/Prop_Exact.v
