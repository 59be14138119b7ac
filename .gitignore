*.vo
*.vok
*.vos
*.glob
*.aux
