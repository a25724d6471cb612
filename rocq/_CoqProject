-Q theories Verif
theories/Base.v
theories/ScopeM.v
theories/TermM.v
theories/SpecTerm.v
theories/TermP.v
theories/TermP2.v
theories/SpecScope.v
theories/ScopeP.v
theories/SpecChrom.v
theories/ChromP.v
theories/PropTerm.v
theories/F64.v
theories/F64P.v
theories/SpecF64.v
theories/PercentP.v
theories/PropPercent.v
theories/CompareM.v
theories/SpecCompare.v
theories/CompareP.v
theories/CompareP2.v
theories/CompareP3.v
theories/CompareP4.v
theories/MilsP.v
theories/AffineP.v
theories/CompareP5.v
theories/PropCompare.v
theories/RowsM.v
theories/SpecRows.v
theories/SortP.v
theories/RowsP.v
theories/PropRows.v
theories/FmtM.v
theories/SpecFmt.v
theories/DecP.v
theories/FmtP.v
theories/DisplayP.v
theories/PropFmt.v
theories/SynM.v
theories/AttrM.v
theories/ParseM.v
theories/SpecParse.v
theories/StrP.v
theories/ParseP.v
theories/ParseP2.v
theories/ParseP3.v
theories/SpecAttr.v
theories/AttrP.v
theories/PropParse.v
theories/StorageM.v
theories/SpecStorage.v
theories/StorageP.v
theories/SpecNanos.v
theories/StorageP2.v
theories/StorageP3.v
theories/PropStorage.v
theories/FilesM.v
theories/SpecFiles.v
theories/FilesP.v
theories/PropFiles.v
theories/GitM.v
theories/SpecGit.v
theories/GitP.v
theories/GitP2.v
theories/PropGit.v
theories/CliM.v
theories/SpecCli.v
theories/CliP.v
theories/PropCli.v
theories/HtmlM.v
theories/HtmlP.v
theories/PropHtml.v
theories/WebM.v
theories/ServerM.v
theories/SpecServer.v
theories/ServerP.v
theories/PropServer.v
theories/SpecWeb.v
theories/WebP.v
theories/PropWeb.v
theories/PageM.v
theories/PageP.v
theories/PropPage.v
theories/SiteM.v
theories/SpecSite.v
theories/SiteP.v
theories/PropSite.v
theories/SpecEnd.v
theories/EndP.v
theories/EndP2.v
theories/EndP3.v
theories/PropEnd.v
theories/IsoM.v
theories/SpecIso.v
theories/IsoP.v
theories/IsoP2.v
theories/IsoP3.v
theories/PropIso.v
theories/LexM.v
theories/SpecText.v
theories/GramM.v
theories/LexP.v
theories/GramP.v
theories/GramP2.v
theories/SpecTmpl.v
theories/TmplP.v
theories/TmplP2.v
theories/TmplP3.v
theories/TmplP4.v
theories/TmplP5.v
theories/TmplP6.v
theories/TmplX.v
theories/PropText.v
theories/TestData.v
theories/Conform.v
theories/LiveM.v
theories/SpecLive.v
theories/LiveP.v
theories/LiveP2.v
theories/PropLive.v
theories/SpecShow.v
theories/ShowP.v
theories/ShowP2.v
theories/ShowP3.v
theories/PropShow.v
theories/SpecPrint.v
theories/PrintP.v
theories/PropPrint.v
theories/SpecAdd.v
theories/AddP.v
theories/AddP2.v
theories/AddP3.v
theories/PropAdd.v
theories/ArgsM.v
theories/SpecArgs.v
theories/ArgsP.v
theories/ArgsP2.v
theories/ArgsP3.v
theories/ArgsP4.v
theories/ArgsP5.v
theories/ArgsP6.v
theories/ArgsP7.v
theories/PropArgs.v
theories/RootM.v
theories/SpecRoot.v
theories/RootP.v
theories/PropRoot.v
theories/WebArgsM.v
theories/SpecWebArgs.v
theories/WebArgsP.v
theories/PropWebArgs.v
theories/MrM.v
theories/SpecMr.v
theories/MrP.v
theories/PropMr.v
theories/ThemeM.v
theories/SpecTheme.v
theories/ThemeP.v
theories/PropTheme.v
theories/AnchorM.v
theories/SpecAnchor.v
theories/AnchorP.v
theories/PropAnchor.v
theories/SpecCorner.v
theories/CornerP.v
theories/SpecCorner2.v
theories/CornerP2.v
theories/PropCorner.v
